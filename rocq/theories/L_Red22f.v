(** Direction of the reactions of chem_C2H4_Air_Red22. *)
From Coq Require Import Reals ZArith List Bool Arith Lra Lia.
From Verif Require Import M_Chem L_Chem M_Red22 M_Red22_Tables S_Red22 L_Elim L_Red22a L_Red22b L_Red22c L_Red22d L_Red22e.
Import ListNotations.
Open Scope R_scope.

Definition listF (r : reac22) : list nat := map (fun i => nth i kept 0%nat) (rcF r) ++ match rxF r with Some k => [nth k steady 0%nat] | None => [] end.
Definition listB (r : reac22) : list nat := map (fun i => nth i kept 0%nat) (rcB r) ++ match rxB r with Some k => [nth k steady 0%nat] | None => [] end.
Definition occN (s : nat) (l : list nat) : Z := Z.of_nat (count_occ Nat.eq_dec l s).
Definition xLt (x : option nat) : bool := match x with Some k => (k <? 10)%nat | None => true end.
Definition massAction (r : reac22) : bool :=
  forallb (fun s => (occN s (listF r) - occN s (listB r) =? - change r s)%Z) (seq 0 32) &&
  (rPref r =? Z.of_nat (length (rProd r)) - Z.of_nat (length (rReac r)))%Z &&
  forallb (fun s => (s <? 31)%nat) (rProd r ++ rReac r) && forallb (fun i => (i <? 21)%nat || (i =? 21)%nat) (rcF r ++ rcB r) && xLt (rxF r) && xLt (rxB r).
Definition bothWays (n : nat) : bool := negb (inb n red22_zeroF) && negb (inb n red22_zeroB).
Lemma mass_action_ok : forallb (fun n => negb (bothWays n) || massAction (rxn n)) (seq 0 206) = true.
Proof. vm_compute. reflexivity. Qed.
Lemma h_free : forallb (fun r => match rMod r with Third tb => negb (inb 1 (map fst tb)) | _ => true end) red22_reactions = true.
Proof. vm_compute. reflexivity. Qed.
Lemma kept_pos : forallb (fun i => match position (nth i kept 0%nat) kept with Some k => (k =? i)%nat | None => false end) (seq 0 22) &&
  forallb (fun i => match position (nth i steady 0%nat) kept with Some k => false | None => match position (nth i steady 0%nat) steady with Some k => (k =? i)%nat | None => false end end) (seq 0 10) = true.
Proof. vm_compute. reflexivity. Qed.
Lemma conc_kept cs XQ i : (i < 22)%nat -> concentration cs XQ (nth i kept 0%nat) = cs i.
Proof.
  intros I. pose proof kept_pos as K. apply andb_prop in K as [K _]. rewrite forallb_forall in K. specialize (K i ltac:(apply in_seq; lia)). unfold concentration.
  destruct (position _ _) as [k|]; [|discriminate]. apply Nat.eqb_eq in K. now subst.
Qed.
Lemma conc_steady cs XQ i : (i < 10)%nat -> concentration cs XQ (nth i steady 0%nat) = XQ i.
Proof.
  intros I. pose proof kept_pos as K. apply andb_prop in K as [_ K]. rewrite forallb_forall in K. specialize (K i ltac:(apply in_seq; lia)). unfold concentration.
  destruct (position _ kept) as [k|]; [discriminate|]. destruct (position _ steady) as [k|]; [|discriminate]. apply Nat.eqb_eq in K. now subst.
Qed.
Lemma sumL_occ l (g : nat -> R) N : (forall s, In s l -> (s < N)%nat) -> sumL l g = sumL (seq 0 N) (fun s => IZR (occN s l) * g s).
Proof.
  induction l as [|a l IH]; intros H; [rewrite sumL_nil; symmetry; apply sumL_zero; intros; unfold occN; cbn; lra|].
  rewrite sumL_cons, IH by (intros; apply H; now right). rewrite <- (sumL_single N a (g a)) at 1 by (apply H; now left). rewrite <- sumL_add. apply sumL_ext. intros s _.
  unfold occN. cbn [count_occ]. destruct (Nat.eq_dec a s) as [->|NE]; [rewrite Nat.eqb_refl, Nat2Z.inj_succ, succ_IZR; lra|]. destruct (Nat.eqb_spec s a); [congruence|]. lra.
Qed.
Lemma foldr_sumL l (g : nat -> R) : fold_right (fun s a => g s + a) 0 l = sumL l g.
Proof. reflexivity. Qed.

Section Dir.
Variables (cs eg : nat -> R) (T : R).
Hypothesis HT : 1 <= T.
Hypothesis CS : forall i, (i < 22)%nat -> 0 < cs i.
Hypothesis EG : forall i, 0 < eg i.
Lemma prodp l : forall a, 0 < a -> forallb (fun i => (i <? 22)%nat) l = true -> 0 < fold_left (fun s i => s * cs i) l a /\ ln (fold_left (fun s i => s * cs i) l a) = ln a + sumL l (fun i => ln (cs i)).
Proof.
  induction l as [|i l IH]; intros a A H; [cbn [fold_left]; rewrite sumL_nil; split; [exact A|lra]|]. cbn [fold_left forallb] in *. apply andb_prop in H as [H1 H2]. apply Nat.ltb_lt in H1.
  destruct (IH (a * cs i) ltac:(apply Rmult_lt_0_compat; auto) H2) as [I1 I2]. split; [exact I1|]. rewrite I2, ln_mult, sumL_cons by auto. lra.
Qed.
(** ln of a positive rate, and the difference between the two directions *)
Definition lnRatio (r : reac22) : R := ln (eqk22 r eg (pref22 T)) + sumL (rcF r) (fun i => ln (cs i)) - sumL (rcB r) (fun i => ln (cs i)).
Lemma rate_ratio r k fb : In r red22_reactions -> modOK (rMod r) = true -> idxOK r = true -> 0 < k -> rate22 T cs eg r k = Some fb ->
  0 < fst fb /\ 0 < snd fb /\ ln (fst fb) - ln (snd fb) = lnRatio r.
Proof.
  intros IR M X K E. unfold idxOK in X. rewrite forallb_app in X. apply andb_prop in X as [XF XB].
  pose proof (eqk_pos T eg HT EG r) as Q. assert (B : 0 < k / eqk22 r eg (pref22 T)) by (now apply Rdiv_lt_0_compat).
  assert (G : forall x, 0 < x -> 0 < fold_left (fun s i => s * cs i) (rcF r) (k * x) /\ 0 < fold_left (fun s i => s * cs i) (rcB r) (k / eqk22 r eg (pref22 T) * x) /\
     ln (fold_left (fun s i => s * cs i) (rcF r) (k * x)) - ln (fold_left (fun s i => s * cs i) (rcB r) (k / eqk22 r eg (pref22 T) * x)) = lnRatio r).
  { intros x X0. destruct (prodp (rcF r) (k * x) ltac:(now apply Rmult_lt_0_compat) XF) as [F1 F2]. destruct (prodp (rcB r) (k / eqk22 r eg (pref22 T) * x) ltac:(now apply Rmult_lt_0_compat) XB) as [B1 B2].
    split; [exact F1|]. split; [exact B1|]. rewrite F2, B2, !ln_mult, lnDiv by auto. unfold lnRatio. lra. }
  unfold rate22 in E. cbv zeta in E. assert (CN : forall i, (i < 22)%nat -> 0 <= cs i) by (intros i I; left; now apply CS).
  destruct (rMod r) as [|tb|tb a b c f] eqn:EM; cbn [modOK] in M.
  - rewrite <- (f_equal (fun o => match o with Some v => v | None => fb end) E). apply G. lra.
  - rewrite <- (f_equal (fun o => match o with Some v => v | None => fb end) E). apply G. rewrite ctb_split by exact M.
    apply Rplus_lt_le_0_compat; [|now apply tb_part_nonneg]. pose proof h_free as HF. rewrite forallb_forall in HF. specialize (HF r IR). rewrite EM in HF. apply negb_true_iff in HF.
    rewrite (sumL_take 1) by (try apply seq_NoDup; apply in_seq; lia). rewrite HF. apply Rplus_lt_le_0_compat; [apply CS; lia|]. apply sumL_nonneg. intros i I. apply in_rm in I as [I _]. apply in_seq in I. destruct (inb i _); [lra|apply CN; lia].
  - destruct (pcor f T _) as [x|] eqn:EP; [|discriminate]. rewrite <- (f_equal (fun o => match o with Some v => v | None => fb end) E). apply G.
    apply andb_prop in M as [M MF]. apply andb_prop in M as [M1 M2].
    assert (PR : 0 < exp (decR a + decR b * ln T + decR c * (1 / T)) * ctb tb cs / k).
    { apply Rdiv_lt_0_compat; [|exact K]. apply Rmult_lt_0_compat; [apply exp_pos|apply ctb_pos; auto; apply CS; lia]. }
    destruct (pcor_pos f T _ MF HT PR) as (x' & EX & PX). rewrite EX in EP. assert (x' = x) by congruence. now subst.
Qed.
Lemma rates_ratio rs : forall ks l n, (forall r, In r rs -> In r red22_reactions) -> length ks = length rs -> Forall (fun k => 0 < k) ks -> forallb (fun r => modOK (rMod r) && idxOK r) rs = true ->
  rates22 T cs eg rs ks = Some l -> (n < length rs)%nat -> 0 < fst (nth n l (0, 0)) /\ 0 < snd (nth n l (0, 0)) /\ ln (fst (nth n l (0, 0))) - ln (snd (nth n l (0, 0))) = lnRatio (nth n rs rx0).
Proof.
  induction rs as [|r rs IH]; intros [|k ks] l n IR L F H E N; try discriminate L; [cbn in N; lia|].
  cbn [forallb] in H. apply andb_prop in H as [H1 H2]. apply andb_prop in H1 as [M X]. inversion F as [|? ? K F']; subst.
  cbn [rates22] in E. destruct (rate22 T cs eg r k) as [fb|] eqn:E1; [|discriminate]. destruct (rates22 T cs eg rs ks) as [l'|] eqn:E2; [|discriminate].
  assert (l = fb :: l') by congruence. subst l. destruct n as [|n]; cbn [nth].
  - apply (rate_ratio r k fb (IR r (or_introl eq_refl)) M X K E1).
  - cbn [length] in L, N. apply (IH ks l' n (fun r0 R0 => IR r0 (or_intror R0))); auto; lia.
Qed.
Lemma ln_eqk r : ln (eqk22 r eg (pref22 T)) = sumL (rProd r) (fun s => ln (eg s)) - sumL (rReac r) (fun s => ln (eg s)) + IZR (rPref r) * ln (pref22 T).
Proof.
  unfold eqk22.
  assert (PP : 0 < pref22 T) by (unfold pref22; apply Rdiv_lt_0_compat; [lra|]; apply Rmult_lt_0_compat; [|lra]; apply Rmult_lt_0_compat; [|apply pow_lt; lra]; apply Rdiv_lt_0_compat; [lra|apply pow_lt; lra]).
  assert (G : forall l a, 0 < a -> 0 < fold_left (fun x i => x / eg i) l a /\ ln (fold_left (fun x i => x / eg i) l a) = ln a - sumL l (fun s => ln (eg s))).
  { induction l as [|i l IH]; intros a A; [cbn [fold_left]; rewrite sumL_nil; split; [exact A|lra]|]. cbn [fold_left]. destruct (IH (a / eg i) ltac:(now apply Rdiv_lt_0_compat)) as [I1 I2].
    split; [exact I1|]. rewrite I2, lnDiv, sumL_cons by auto. lra. }
  assert (G' : forall l a, 0 < a -> 0 < fold_left (fun x i => x * eg i) l a /\ ln (fold_left (fun x i => x * eg i) l a) = ln a + sumL l (fun s => ln (eg s))).
  { induction l as [|i l IH]; intros a A; [cbn [fold_left]; rewrite sumL_nil; split; [exact A|lra]|]. cbn [fold_left]. destruct (IH (a * eg i) ltac:(now apply Rmult_lt_0_compat)) as [I1 I2].
    split; [exact I1|]. rewrite I2, ln_mult, sumL_cons by auto. lra. }
  destruct (G' (rProd r) 1 ltac:(lra)) as [A1 A2]. destruct (G (rReac r) _ A1) as [B1 B2].
  assert (W : 0 < powerRZ (pref22 T) (rPref r)) by (destruct (rPref r); cbn [powerRZ]; [lra|now apply pow_lt|now apply Rinv_0_lt_compat, pow_lt]).
  rewrite ln_mult by auto. rewrite B2, A2, ln_1. enough (LP : ln (powerRZ (pref22 T) (rPref r)) = IZR (rPref r) * ln (pref22 T)) by (rewrite LP; lra).
  destruct (rPref r) as [|q|q]; cbn [powerRZ]; [rewrite ln_1; lra| |].
  - rewrite ln_pow by exact PP. rewrite INR_IZR_INZ, positive_nat_Z. reflexivity.
  - rewrite ln_Rinv, ln_pow by (try apply pow_lt; exact PP). rewrite INR_IZR_INZ, positive_nat_Z. change (Z.neg q) with (- Z.pos q)%Z. rewrite opp_IZR. lra.
Qed.
End Dir.

(** the logarithm of the ratio of the two directions of a reaction is minus the change of Gibbs energy *)
Lemma ratio_gibbs cs XQ T r : 1 <= T -> (forall i, (i < 22)%nat -> 0 < cs i) -> (forall k, (k < 10)%nat -> 0 < XQ k) -> massAction r = true ->
  lnRatio cs (eg22 red22 T) T r + ln (xfac (rxF r) XQ) - ln (xfac (rxB r) XQ) = - gibbsChange r (potential22 red22 T (concentration cs XQ)).
Proof.
  intros HT CS XP M. unfold massAction in M. apply andb_prop in M as [M X2]. apply andb_prop in M as [M X1]. apply andb_prop in M as [M IX]. apply andb_prop in M as [M RG]. apply andb_prop in M as [M PF].
  rewrite forallb_forall in M, RG, IX. apply Z.eqb_eq in PF. set (eg := eg22 red22 T). set (c := concentration cs XQ). set (lc := fun s => ln (c s)).
  assert (EG : forall i, 0 < eg i) by (intros i; apply exp_pos).
  assert (PP : 0 < pref22 T) by (unfold pref22; apply Rdiv_lt_0_compat; [lra|]; apply Rmult_lt_0_compat; [|lra]; apply Rmult_lt_0_compat; [|apply pow_lt; lra]; apply Rdiv_lt_0_compat; [lra|apply pow_lt; lra]).
  assert (I22 : forall i, In i (rcF r ++ rcB r) -> (i < 22)%nat).
  { intros i I. specialize (IX i I). apply orb_prop in IX as [IX|IX]; [apply Nat.ltb_lt in IX|apply Nat.eqb_eq in IX]; lia. }
  assert (MP : forall l, (forall i, In i l -> (i < 22)%nat) -> sumL l (fun i => ln (cs i)) = sumL (map (fun i => nth i kept 0%nat) l) lc).
  { induction l as [|i l IH]; intros H; [reflexivity|]. cbn [map]. rewrite !sumL_cons, IH by (intros; apply H; now right). f_equal. unfold lc, c. now rewrite conc_kept by (apply H; now left). }
  assert (XX : forall x, xLt x = true -> ln (xfac x XQ) = sumL match x with Some k => [nth k steady 0%nat] | None => [] end lc).
  { intros [k|] K; cbn [xfac xLt] in *; [apply Nat.ltb_lt in K; rewrite sumL_cons, sumL_nil; unfold lc, c; rewrite conc_steady by exact K; lra|rewrite ln_1; reflexivity]. }
  assert (LF : sumL (rcF r) (fun i => ln (cs i)) + ln (xfac (rxF r) XQ) = sumL (listF r) lc).
  { unfold listF. rewrite sumL_app, <- MP, <- XX by (auto; intros; apply I22, in_or_app; tauto). reflexivity. }
  assert (LB : sumL (rcB r) (fun i => ln (cs i)) + ln (xfac (rxB r) XQ) = sumL (listB r) lc).
  { unfold listB. rewrite sumL_app, <- MP, <- XX by (auto; intros; apply I22, in_or_app; tauto). reflexivity. }
  assert (K32 : forall i, (nth i kept 0 < 32)%nat) by (intros i; do 22 (destruct i as [|i]; [cbn; lia|]); cbn; destruct i; lia).
  assert (S32 : forall i, (nth i steady 0 < 32)%nat) by (intros i; do 10 (destruct i as [|i]; [cbn; lia|]); cbn; destruct i; lia).
  assert (RF : forall s, In s (listF r) -> (s < 32)%nat).
  { intros s I. unfold listF in I. apply in_app_or in I as [I|I]; [apply in_map_iff in I as (i & <- & _); apply K32|]. destruct (rxF r); [destruct I as [<-|[]]; apply S32|easy]. }
  assert (RB : forall s, In s (listB r) -> (s < 32)%nat).
  { intros s I. unfold listB in I. apply in_app_or in I as [I|I]; [apply in_map_iff in I as (i & <- & _); apply K32|]. destruct (rxB r); [destruct I as [<-|[]]; apply S32|easy]. }
  assert (R31 : forall s, In s (rProd r ++ rReac r) -> (s < 31)%nat) by (intros s I; apply Nat.ltb_lt; now apply RG).
  assert (CH : sumL (listF r) lc - sumL (listB r) lc = - (sumL (rProd r) lc - sumL (rReac r) lc)).
  { rewrite (sumL_occ (listF r) lc 32 RF), (sumL_occ (listB r) lc 32 RB), (sumL_occ (rProd r) lc 32), (sumL_occ (rReac r) lc 32) by (intros s I; assert (s < 31)%nat by (apply R31, in_or_app; tauto); lia).
    assert (D0 : forall l f g, sumL l f - sumL l g = sumL l (fun i => f i - g i)) by (clear; intros l f g; induction l as [|a l IH]; [rewrite !sumL_nil; lra|]; rewrite !sumL_cons, <- IH; lra).
    rewrite !D0. rewrite (sumL_ext _ _ (fun s => (-1) * (IZR (occN s (rProd r)) * lc s - IZR (occN s (rReac r)) * lc s))); [rewrite sumL_scale; lra|].
    intros s I. specialize (M s I). apply Z.eqb_eq in M. apply (f_equal IZR) in M. rewrite minus_IZR, opp_IZR in M. unfold change in M. rewrite minus_IZR in M. fold (occN s (rProd r)) (occN s (rReac r)) in M.
    transitivity ((IZR (occN s (listF r)) - IZR (occN s (listB r))) * lc s); [lra|]. rewrite M. lra. }
  assert (POT : forall l, (forall s, In s l -> (s < 31)%nat) -> fold_right (fun s a => potential22 red22 T c s + a) 0 l = sumL l lc - INR (length l) * ln (pref22 T) - sumL l (fun s => ln (eg s))).
  { assert (CP : forall s, (s < 31)%nat -> 0 < c s).
    { intros s S0. unfold c, concentration. assert (PK : match position s kept with Some k => (k <? 22)%nat | None => match position s steady with Some k => (k <? 10)%nat | None => false end end = true).
      { do 31 (destruct s as [|s]; [reflexivity|]). lia. }
      destruct (position s kept) as [k|]; [apply CS; now apply Nat.ltb_lt|]. destruct (position s steady) as [k|]; [apply XP; now apply Nat.ltb_lt|discriminate]. }
    induction l as [|s l IH]; intros H; [cbn [fold_right length INR]; rewrite !sumL_nil; lra|]. cbn [fold_right]. rewrite IH by (intros; apply H; now right). rewrite !sumL_cons.
    change (length (s :: l)) with (S (length l)). rewrite S_INR. unfold potential22. rewrite lnDiv by (auto; apply CP, H; now left). fold eg. unfold lc. lra. }
  unfold gibbsChange. rewrite !POT by (intros; apply R31, in_or_app; tauto).
  unfold lnRatio. rewrite (ln_eqk eg T HT EG r), PF, minus_IZR, <- !INR_IZR_INZ. lra.
Qed.
