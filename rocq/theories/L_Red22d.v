(** With oxygen present every rate of chem_C2H4_Air_Red22 is defined and non-negative, the steady-state system is solvable and its solution non-negative. *)
From Coq Require Import Reals ZArith List Bool Arith Lra Lia.
From Verif Require Import M_Chem L_Chem M_Red22 M_Red22_Tables L_Elim L_Red22a L_Red22b L_Red22c.
Import ListNotations.
Open Scope R_scope.

Definition nonneg (d : decimal) : bool := let 'D m _ := d in (0 <=? m)%Z.
Definition le1 (d : decimal) : bool := let 'D m e := d in (m <=? 0)%Z || ((e <=? 0) && (m <=? 10 ^ (- e)))%Z.
Definition geM1 (d : decimal) : bool := let 'D m e := d in (0 <=? m)%Z || ((e <=? 0) && (- (10 ^ (- e)) <=? m))%Z.
Definition gtM1 (d : decimal) : bool := let 'D m e := d in (0 <=? m)%Z || ((e <=? 0) && (- (10 ^ (- e)) <? m))%Z.
Lemma pow10_inv e : (e <= 0)%Z -> IZR (10 ^ (- e)) * powerRZ 10 e = 1.
Proof.
  intros H. set (n := Z.to_nat (- e)). assert (E : e = (- Z.of_nat n)%Z) by (unfold n; lia). rewrite E, Z.opp_involutive.
  rewrite <- pow_IZR. rewrite powerRZ_neg', <- pow_powerRZ. field. apply pow_nonzero. lra.
Qed.
Lemma nonneg_decR d : nonneg d = true -> 0 <= decR d.
Proof. destruct d as [m e]. unfold nonneg, decR. intros H. apply Z.leb_le, IZR_le in H. apply Rmult_le_pos; [exact H|]. left. apply powerRZ_10_pos. Qed.
Lemma le1_decR d : le1 d = true -> decR d <= 1.
Proof.
  destruct d as [m e]. unfold le1, decR. pose proof (powerRZ_10_pos e) as P. intros H. apply orb_prop in H as [H|H].
  - apply Z.leb_le, IZR_le in H. assert (0 <= (- IZR m) * powerRZ 10 e) by (apply Rmult_le_pos; lra). lra.
  - apply andb_prop in H as [H1 H2]. apply Z.leb_le in H1. apply Z.leb_le, IZR_le in H2. rewrite <- (pow10_inv e H1). apply Rmult_le_compat_r; lra.
Qed.
Lemma geM1_decR d : geM1 d = true -> -1 <= decR d.
Proof.
  destruct d as [m e]. unfold geM1, decR. pose proof (powerRZ_10_pos e) as P. intros H. apply orb_prop in H as [H|H].
  - apply Z.leb_le, IZR_le in H. assert (0 <= (IZR m) * powerRZ 10 e) by (apply Rmult_le_pos; lra). lra.
  - apply andb_prop in H as [H1 H2]. apply Z.leb_le in H1. apply Z.leb_le, IZR_le in H2. rewrite opp_IZR in H2. pose proof (pow10_inv e H1) as Q.
    assert (- IZR (10 ^ (- e)) * powerRZ 10 e <= IZR m * powerRZ 10 e) by (apply Rmult_le_compat_r; lra). lra.
Qed.
Lemma gtM1_decR d : gtM1 d = true -> -1 < decR d.
Proof.
  destruct d as [m e]. unfold gtM1, decR. pose proof (powerRZ_10_pos e) as P. intros H. apply orb_prop in H as [H|H].
  - apply Z.leb_le, IZR_le in H. assert (0 <= (IZR m) * powerRZ 10 e) by (apply Rmult_le_pos; lra). lra.
  - apply andb_prop in H as [H1 H2]. apply Z.leb_le in H1. apply Z.ltb_lt, IZR_lt in H2. rewrite opp_IZR in H2. pose proof (pow10_inv e H1) as Q.
    assert (- IZR (10 ^ (- e)) * powerRZ 10 e < IZR m * powerRZ 10 e) by (apply Rmult_lt_compat_r; lra). lra.
Qed.

Definition decEqb (a b : decimal) : bool := let 'D m e := a in let 'D m' e' := b in (m =? m')%Z && (e =? e')%Z.
Lemma decEqb_eq a b : decEqb a b = true -> a = b.
Proof. destruct a, b. unfold decEqb. intros H. apply andb_prop in H as [H1 H2]. apply Z.eqb_eq in H1, H2. now subst. Qed.
Definition fOK (f : option (decimal * decimal * decimal * decimal * decimal)) : bool :=
  match f with
  | None => true
  | Some (c1, t1, c2, t2, t3) =>
      pos t1 && pos t2 && ((nonneg c1 && le1 c1 && (nonneg c2 && le1 c2) && nonneg t3) ||
                           (decEqb c1 (D (-9816) (-4)) && decEqb c2 (D 19816 (-4)) && decEqb t3 (D (-795) (-4))))
  end.
Lemma exp_le_1 x : x <= 0 -> exp x <= 1.
Proof. intros [H| ->]; [|rewrite exp_0; lra]. left. replace 1 with (exp 0) by apply exp_0. now apply exp_increasing. Qed.
Lemma fcent_bounds c1 t1 c2 t2 t3 T : fOK (Some (c1, t1, c2, t2, t3)) = true -> 1 <= T -> 0 < fcent22 (c1, t1, c2, t2, t3) T <= 31/10.
Proof.
  unfold fOK, fcent22. intros H HT. apply andb_prop in H as [H H0]. apply andb_prop in H as [P1 P2]. apply pos_decR in P1, P2.
  assert (E1 : 0 < exp (- T / decR t1) <= 1).
  { split; [apply exp_pos|]. apply exp_le_1. unfold Rdiv. pose proof (Rinv_0_lt_compat _ P1). assert (0 <= T * / decR t1) by (apply Rmult_le_pos; lra). lra. }
  assert (E2 : 0 < exp (- T / decR t2) <= 1).
  { split; [apply exp_pos|]. apply exp_le_1. unfold Rdiv. pose proof (Rinv_0_lt_compat _ P2). assert (0 <= T * / decR t2) by (apply Rmult_le_pos; lra). lra. }
  pose proof (exp_pos (- decR t3 / T)) as E3. set (a := exp (- T / decR t1)) in *. set (b := exp (- T / decR t2)) in *.
  apply orb_prop in H0 as [H0|H0].
  - apply andb_prop in H0 as [H0 N3]. apply andb_prop in H0 as [H0 C2]. apply andb_prop in H0 as [N1 L1]. apply andb_prop in C2 as [N2 L2].
    apply nonneg_decR in N1, N2, N3. apply le1_decR in L1, L2.
    assert (0 <= decR c1 * a <= 1). { split; [apply Rmult_le_pos; lra|]. rewrite <- (Rmult_1_l 1). apply Rmult_le_compat; lra. }
    assert (0 <= decR c2 * b <= 1). { split; [apply Rmult_le_pos; lra|]. rewrite <- (Rmult_1_l 1). apply Rmult_le_compat; lra. }
    assert (exp (- decR t3 / T) <= 1).
    { apply exp_le_1. unfold Rdiv. assert (0 < / T) by (apply Rinv_0_lt_compat; lra). assert (0 <= decR t3 * / T) by (apply Rmult_le_pos; lra). lra. }
    lra.
  - apply andb_prop in H0 as [H0 N3]. apply andb_prop in H0 as [N1 N2]. apply decEqb_eq in N1, N2, N3. subst c1 c2 t3. unfold decR.
    assert (Q : powerRZ 10 (-4) = / 10000) by (cbn [powerRZ Pos.to_nat Pos.iter_op Nat.add]; f_equal; change (Pos.to_nat 4) with 4%nat; lra). unfold decR in E3. rewrite Q in *. set (x := - (-795 * / 10000) / T) in *.
    assert (X : 0 < x <= 795/10000).
    { unfold x. assert (0 < / T <= 1). { split; [apply Rinv_0_lt_compat; lra|]. rewrite <- Rinv_1. apply Rinv_le_contravar; lra. } unfold Rdiv. split; [apply Rmult_lt_0_compat; lra|].
      rewrite <- (Rmult_1_r (795 * / 10000)). replace (- (-795 * / 10000)) with (795 * / 10000) by lra. apply Rmult_le_compat_l; lra. }
    assert (1 < exp x) by (rewrite <- exp_0 at 1; apply exp_increasing; lra).
    assert (exp x <= 11/10).
    { assert (I : 1 - x <= exp (- x)) by (pose proof (exp_ineq1_le (- x)); lra). rewrite exp_Ropp in I.
      apply Rmult_le_reg_r with (/ exp x); [apply Rinv_0_lt_compat; lra|]. rewrite Rinv_r by lra. lra. }
    lra.
Qed.
Lemma log10_half F : 0 < F <= 31/10 -> log10 F < 1/2.
Proof.
  intros [P H]. unfold log10. assert (L : 0 < ln 10) by (rewrite <- ln_1; apply ln_increasing; lra).
  apply Rmult_lt_reg_r with (ln 10); [exact L|]. unfold Rdiv. rewrite Rmult_assoc, Rinv_l, Rmult_1_r by lra.
  assert (Q : ln (F * F) < ln 10). { apply ln_increasing; [now apply Rmult_lt_0_compat|]. assert (F * F <= 31/10 * (31/10)) by (apply Rmult_le_compat; lra). lra. }
  rewrite ln_mult in Q by lra. lra.
Qed.
Lemma pcor_pos f T PR : fOK f = true -> 1 <= T -> 0 < PR -> exists x, pcor f T PR = Some x /\ 0 < x.
Proof.
  intros H HT HP. assert (L : 0 < PR / (1 + PR)) by (now apply lind_pos). unfold pcor. destruct f as [[[[[c1 t1] c2] t2] t3]|].
  - pose proof (fcent_bounds _ _ _ _ _ T H HT) as FB. set (F := fcent22 _ T) in *. pose proof (log10_half F FB) as LF.
    destruct (Rle_dec F 0); [lra|]. destruct (Rle_dec PR 0); [lra|]. cbv zeta.
    destruct (Req_EM_T _ 0) as [E|NE].
    + destruct (Req_EM_T _ 0) as [E'|NE']; [rewrite E' in E; lra|]. eexists; split; [reflexivity|lra].
    + eexists; split; [reflexivity|]. apply Rmult_lt_0_compat; [unfold Rpower; apply exp_pos|exact L].
  - destruct (Req_EM_T (1 + PR) 0); [lra|]. eexists; split; [reflexivity|exact L].
Qed.

(** the third-body concentration *)
Lemma sumTo_sumL n f : sumTo n f = sumL (seq 0 n) f.
Proof.
  unfold sumTo. assert (G : forall l a, fold_left (fun s i => s + f i) l a = a + sumL l f).
  { induction l as [|i l IH]; intros a; [rewrite sumL_nil; cbn; lra|]. cbn [fold_left]. rewrite IH, sumL_cons. lra. }
  rewrite G. lra.
Qed.
Definition tbOK (tb : list (nat * decimal)) : bool := nodupb (map fst tb) && forallb (fun ic => (fst ic <? 22)%nat && geM1 (snd ic)) tb.
Definition tbO2 (tb : list (nat * decimal)) : bool := forallb (fun ic => negb (fst ic =? 3)%nat || gtM1 (snd ic)) tb.
Section Cell.
Variables (cs : nat -> R).
Hypothesis CS : forall i, (i < 22)%nat -> 0 <= cs i.
Lemma ctb_split tb : tbOK tb = true -> ctb tb cs = sumL (seq 0 22) (fun i => if inb i (map fst tb) then 0 else cs i) + fold_right (fun ic s => (1 + decR (snd ic)) * cs (fst ic) + s) 0 tb.
Proof.
  intros H. unfold tbOK in H. apply andb_prop in H as [ND H]. apply nodupb_ok in ND. rewrite forallb_forall in H.
  unfold ctb, ctot. rewrite sumTo_sumL.
  assert (G : forall l a, fold_left (fun s ic => s + decR (snd ic) * cs (fst ic)) l a = a + fold_right (fun ic s => decR (snd ic) * cs (fst ic) + s) 0 l).
  { induction l as [|ic l IH]; intros a; [cbn; lra|]. cbn [fold_left fold_right]. rewrite IH. lra. }
  rewrite G. clear G.
  assert (K : sumL (seq 0 22) cs = sumL (seq 0 22) (fun i => if inb i (map fst tb) then 0 else cs i) + fold_right (fun ic s => cs (fst ic) + s) 0 tb).
  { assert (A : fold_right (fun ic s => cs (fst ic) + s) 0 tb = sumL (map fst tb) cs) by (clear; induction tb as [|ic l IH]; [reflexivity|]; cbn [map fold_right]; rewrite sumL_cons, IH; reflexivity).
    rewrite A.
    rewrite (sumL_ext (map fst tb) cs (fun i => if inb i (map fst tb) then cs i else 0)).
    2:{ intros i I. apply inb_iff in I. now rewrite I. }
    rewrite <- (sumL_part (seq 0 22) (map fst tb)).
    - rewrite <- sumL_add. apply sumL_ext. intros i _. destruct (inb i (map fst tb)); lra.
    - apply seq_NoDup. - exact ND.
    - intros i I. apply in_map_iff in I as (ic & <- & I). specialize (H ic I). apply andb_prop in H as [H _]. apply Nat.ltb_lt in H. apply in_seq. lia.
    - intros i _ NI. apply inb_false in NI. now rewrite NI. }
  rewrite K, Rplus_assoc. f_equal. clear. induction tb as [|ic l IH]; cbn [fold_right]; [lra|]. lra.
Qed.
Lemma tb_part_nonneg tb : tbOK tb = true -> 0 <= fold_right (fun ic s => (1 + decR (snd ic)) * cs (fst ic) + s) 0 tb.
Proof.
  intros H. unfold tbOK in H. apply andb_prop in H as [_ H]. induction tb as [|ic l IH]; cbn [fold_right forallb] in *; [lra|].
  apply andb_prop in H as [H1 H2]. apply andb_prop in H1 as [H1 H3]. apply Nat.ltb_lt in H1. apply geM1_decR in H3. specialize (IH H2).
  assert (0 <= (1 + decR (snd ic)) * cs (fst ic)) by (apply Rmult_le_pos; [lra|now apply CS]). lra.
Qed.
Lemma ctb_nonneg tb : tbOK tb = true -> 0 <= ctb tb cs.
Proof.
  intros H. rewrite ctb_split by exact H. apply Rplus_le_le_0_compat; [|now apply tb_part_nonneg].
  apply sumL_nonneg. intros i I. apply in_seq in I. destruct (inb i _); [lra|apply CS; lia].
Qed.
Lemma ctb_pos tb : tbOK tb = true -> tbO2 tb = true -> 0 < cs 3%nat -> 0 < ctb tb cs.
Proof.
  intros H O2 C3. rewrite ctb_split by exact H. pose proof (tb_part_nonneg tb H) as P.
  destruct (inb 3 (map fst tb)) eqn:E.
  - assert (S0 : 0 <= sumL (seq 0 22) (fun i => if inb i (map fst tb) then 0 else cs i)).
    { apply sumL_nonneg. intros i I. apply in_seq in I. destruct (inb i _); [lra|apply CS; lia]. }
    apply Rplus_le_lt_0_compat; [exact S0|]. clear S0 P. apply inb_iff in E.
    induction tb as [|ic l IH]; [easy|]. unfold tbOK, tbO2 in *. cbn [map nodupb forallb fold_right] in *.
    apply andb_prop in H as [ND H]. apply andb_prop in ND as [_ ND]. apply andb_prop in H as [H1 H2]. apply andb_prop in O2 as [O1 O2].
    assert (OKl : tbOK l = true) by (unfold tbOK; now rewrite ND, H2). pose proof (tb_part_nonneg l OKl) as PL.
    apply andb_prop in H1 as [H1 H3]. apply Nat.ltb_lt in H1. apply geM1_decR in H3.
    destruct E as [E|E].
    + rewrite E in *. apply orb_prop in O1 as [O1|O1]; [discriminate|]. apply gtM1_decR in O1. assert (0 < (1 + decR (snd ic)) * cs 3%nat) by (apply Rmult_lt_0_compat; lra). lra.
    + specialize (IH OKl O2 E). assert (0 <= (1 + decR (snd ic)) * cs (fst ic)) by (apply Rmult_le_pos; [lra|now apply CS]). lra.
  - apply Rplus_lt_le_0_compat; [|exact P]. rewrite (sumL_take 3) by (try apply seq_NoDup; apply in_seq; lia). rewrite E.
    apply Rplus_lt_le_0_compat; [exact C3|]. apply sumL_nonneg. intros i I. apply in_rm in I. destruct I as [I _]. apply in_seq in I. destruct (inb i _); [lra|apply CS; lia].
Qed.

Definition modOK (m : mod22) : bool := match m with NoMod => true | Third tb => tbOK tb | Fall tb _ _ _ f => tbOK tb && tbO2 tb && fOK f end.
Definition isThird (m : mod22) : bool := match m with Third _ => true | _ => false end.
Definition idxOK (r : reac22) : bool := forallb (fun i => (i <? 22)%nat) (rcF r ++ rcB r).
Definition onlyO2 (l : list nat) : bool := forallb (Nat.eqb 3) l.
Definition good (r : reac22) (fb : R * R) : Prop :=
  0 <= fst fb /\ 0 <= snd fb /\ (isThird (rMod r) = false -> (onlyO2 (rcF r) = true -> 0 < fst fb) /\ (onlyO2 (rcB r) = true -> 0 < snd fb)).
Variables (T : R) (eg : nat -> R).
Hypothesis HT : 1 <= T.
Hypothesis C3 : 0 < cs 3%nat.
Hypothesis EG : forall i, 0 < eg i.
Lemma eqk_pos r : 0 < eqk22 r eg (pref22 T).
Proof.
  unfold eqk22. apply Rmult_lt_0_compat.
  - assert (G : forall l a, 0 < a -> 0 < fold_left (fun x i => x / eg i) l a).
    { induction l as [|i l IH]; intros a A; [exact A|]. cbn [fold_left]. apply IH. now apply Rdiv_lt_0_compat. }
    assert (G' : forall l a, 0 < a -> 0 < fold_left (fun x i => x * eg i) l a).
    { induction l as [|i l IH]; intros a A; [exact A|]. cbn [fold_left]. apply IH. now apply Rmult_lt_0_compat. }
    apply G, G'. lra.
  - assert (0 < pref22 T) by (unfold pref22; apply Rdiv_lt_0_compat; [lra|]; apply Rmult_lt_0_compat; [|lra]; apply Rmult_lt_0_compat; [|apply pow_lt; lra]; apply Rdiv_lt_0_compat; [lra|apply pow_lt; lra]).
    destruct (rPref r); cbn [powerRZ]; [lra|now apply pow_lt|now apply Rinv_0_lt_compat, pow_lt].
Qed.
Lemma prod_nonneg l : forall a, 0 <= a -> forallb (fun i => (i <? 22)%nat) l = true -> 0 <= fold_left (fun s i => s * cs i) l a.
Proof.
  induction l as [|i l IH]; intros a A H; [exact A|]. cbn [fold_left forallb] in *. apply andb_prop in H as [H1 H2]. apply Nat.ltb_lt in H1. apply IH; [|exact H2].
  apply Rmult_le_pos; auto.
Qed.
Lemma prod_pos l : forall a, 0 < a -> onlyO2 l = true -> 0 < fold_left (fun s i => s * cs i) l a.
Proof.
  induction l as [|i l IH]; intros a A H; [exact A|]. cbn [fold_left]. unfold onlyO2 in *. cbn [forallb] in H. apply andb_prop in H as [H1 H2]. apply Nat.eqb_eq in H1. subst i.
  apply IH; [|exact H2]. now apply Rmult_lt_0_compat.
Qed.
Lemma rate22_good r k : modOK (rMod r) = true -> idxOK r = true -> 0 < k -> exists fb, rate22 T cs eg r k = Some fb /\ good r fb.
Proof.
  intros M X K. unfold idxOK in X. rewrite forallb_app in X. apply andb_prop in X as [XF XB].
  assert (B : 0 < k / eqk22 r eg (pref22 T)) by (apply Rdiv_lt_0_compat; [exact K|apply eqk_pos]).
  assert (P : forall x, 0 <= x -> (isThird (rMod r) = false -> 0 < x) -> good r (fold_left (fun s i => s * cs i) (rcF r) (k * x), fold_left (fun s i => s * cs i) (rcB r) (k / eqk22 r eg (pref22 T) * x))).
  { intros x X0 X1. split; [|split]; cbn [fst snd].
    - apply prod_nonneg; [apply Rmult_le_pos; lra|exact XF]. - apply prod_nonneg; [apply Rmult_le_pos; lra|exact XB].
    - intros TH. specialize (X1 TH). split; intros O; apply prod_pos; auto; now apply Rmult_lt_0_compat. }
  unfold rate22. cbv zeta. destruct (rMod r) as [|tb|tb a b c f] eqn:E; cbn [modOK isThird] in *.
  - eexists; split; [reflexivity|]. apply P; lra.
  - eexists; split; [reflexivity|]. apply P; [now apply ctb_nonneg|discriminate].
  - apply andb_prop in M as [M MF]. apply andb_prop in M as [M1 M2].
    assert (PR : 0 < exp (decR a + decR b * ln T + decR c * (1 / T)) * ctb tb cs / k).
    { apply Rdiv_lt_0_compat; [|exact K]. apply Rmult_lt_0_compat; [apply exp_pos|now apply ctb_pos]. }
    destruct (pcor_pos f T _ MF HT PR) as (x & EX & PX). rewrite EX. eexists; split; [reflexivity|]. apply P; [lra|auto].
Qed.
Lemma rates22_good rs : forall ks, length ks = length rs -> Forall (fun k => 0 < k) ks -> forallb (fun r => modOK (rMod r) && idxOK r) rs = true ->
  exists l, rates22 T cs eg rs ks = Some l /\ length l = length rs /\ forall n, (n < length rs)%nat -> good (nth n rs rx0) (nth n l (0, 0)).
Proof.
  induction rs as [|r rs IH]; intros [|k ks] L F H; try discriminate L.
  - exists []. split; [reflexivity|]. split; [reflexivity|]. cbn; intros; lia.
  - cbn [forallb] in H. apply andb_prop in H as [H1 H2]. apply andb_prop in H1 as [M X]. inversion F as [|? ? K F']; subst.
    destruct (IH ks ltac:(cbn in L; lia) F' H2) as (l & E & LL & G). destruct (rate22_good r k M X K) as (fb & E' & G').
    exists (fb :: l). cbn [rates22]. rewrite E', E. split; [reflexivity|]. split; [cbn; lia|]. intros [|n] N; cbn [nth]; [exact G'|]. apply G. cbn in N. lia.
Qed.
End Cell.

(** the rate constants are positive *)
Definition kOK (n : nat) (k : k22) : bool := match k with KExp _ _ _ => true | KConst a => pos a | KMul a m => pos a && (m <? n)%nat end.
Fixpoint ksOK (n : nat) (rs : list reac22) : bool := match rs with [] => true | r :: rs' => kOK n (rK22 r) && ksOK (S n) rs' end.
Lemma kvals_good rs T : ksOK 0 rs = true -> length (kvals rs T) = length rs /\ Forall (fun k => 0 < k) (kvals rs T).
Proof.
  intros H. unfold kvals.
  assert (G : forall rs acc, Forall (fun k => 0 < k) acc -> ksOK (length acc) rs = true ->
    let l := fold_left (fun acc r => acc ++ [match rK22 r with KExp a b c => exp (decR a + decR b * ln T + decR c * (1 / T)) | KConst a => decR a | KMul a k => decR a * nth k acc 0 end]) rs acc in
    length l = (length acc + length rs)%nat /\ Forall (fun k => 0 < k) l).
  { clear. induction rs as [|r rs IH]; intros acc F H; cbv zeta; [cbn [fold_left length]; split; [lia|exact F]|]. cbn [ksOK] in H. apply andb_prop in H as [H1 H2].
    cbn [fold_left]. set (v := match rK22 r with KExp a b c => exp (decR a + decR b * ln T + decR c * (1 / T)) | KConst a => decR a | KMul a k => decR a * nth k acc 0 end).
    assert (V : 0 < v).
    { unfold v. destruct (rK22 r) as [a b c|a|a m]; cbn [kOK] in H1; [apply exp_pos|now apply pos_decR|]. apply andb_prop in H1 as [H1 H3]. apply Nat.ltb_lt in H3.
      apply Rmult_lt_0_compat; [now apply pos_decR|]. rewrite Forall_forall in F. apply F. now apply nth_In. }
    specialize (IH (acc ++ [v])). cbv zeta in IH. destruct IH as [I1 I2].
    - apply Forall_app. split; [exact F|]. constructor; [exact V|constructor].
    - rewrite app_length. cbn [length]. rewrite Nat.add_1_r. exact H2.
    - split; [|exact I2]. rewrite I1, app_length. cbn [length]. lia. }
  specialize (G rs [] (Forall_nil _) H). cbv zeta in G. cbn [length Nat.add] in G. exact G.
Qed.
Lemma mech_ok : ksOK 0 red22_reactions && forallb (fun r => modOK (rMod r) && idxOK r) red22_reactions = true.
Proof. vm_compute. reflexivity. Qed.
