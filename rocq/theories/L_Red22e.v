(** The steady-state system of chem_C2H4_Air_Red22 with oxygen present: diagonally dominant, hence solvable with a non-negative solution. *)
From Coq Require Import Reals ZArith List Bool Arith Lra Lia.
From Verif Require Import M_Chem L_Chem M_Red22 M_Red22_Tables L_Elim L_Red22a L_Red22b L_Red22c L_Red22d.
Import ListNotations.
Open Scope R_scope.

(** for each steady species a direction of a reaction with at most oxygen on its side that consumes it and, except for CH, makes no other steady species *)
Definition terminal (j : nat) : dir * nat :=
  nth j [(Fwd, 37); (Fwd, 37); (Fwd, 51); (Fwd, 64); (Fwd, 46); (Fwd, 100); (Bwd, 113); (Fwd, 137); (Fwd, 173); (Fwd, 152); (Fwd, 202)]%nat (Fwd, 37%nat).
Definition rowOf (i : nat) : row22 := nth (i - 1) red22_rows (0%nat, [], []).
Definition colOf (r : row22) (j : nat) : list (dir * nat) := flat_map (fun jt => if (fst jt =? j)%nat then snd jt else []) (rCols r).
Definition others (j : nat) : list (dir * nat) := flat_map (fun i => colOf (rowOf i) j) (rm j acts).
Definition occLe (l l' : list (dir * nat)) : bool :=
  forallb (fun n => (occ (Fwd, n) l <=? occ (Fwd, n) l')%nat && (occ (Bwd, n) l <=? occ (Bwd, n) l')%nat) (seq 0 206) && forallb (fun t => (snd t <? 206)%nat) (l ++ l').
Definition domOK (j : nat) : bool :=
  occLe (if (j =? 1)%nat then others j else terminal j :: others j) (rDen (rowOf j)) && occLe [terminal j] (rDen (rowOf j)) &&
  inb (rId (rowOf j)) [j] && existsb (fun r => (rId r =? j)%nat) red22_rows && (snd (terminal j) <? 206)%nat && negb (zeroed (terminal j)) &&
  negb (isThird (rMod (rxn (snd (terminal j))))) && onlyO2 (match fst (terminal j) with Fwd => rcF (rxn (snd (terminal j))) | Bwd => rcB (rxn (snd (terminal j))) end).
Lemma dom_ok : forallb domOK acts = true.
Proof. vm_compute. reflexivity. Qed.
Lemma rowOf_ok : map rowOf acts = red22_rows.
Proof. vm_compute. reflexivity. Qed.

Lemma small_eps (l : list (R * R)) : (forall a t, In (a, t) l -> 0 <= a /\ 0 < t) -> exists e, 0 < e /\ forall a t, In (a, t) l -> e * a < t.
Proof.
  induction l as [|[a t] l IH]; intros H; [exists 1; split; [lra|easy]|]. destruct IH as (e & P & E); [intros; apply H; now right|].
  destruct (H a t (or_introl eq_refl)) as [A T0]. set (q := t / (a + 1)). assert (Q : 0 < q) by (apply Rdiv_lt_0_compat; lra).
  assert (QA : q * a < t). { assert (Z : q * (a + 1) = t) by (unfold q; field; lra). assert (0 < q * 1) by lra. lra. }
  exists (Rmin e q). split; [now apply Rmin_pos|]. intros a' t' [X|X].
  - injection X as <- <-. apply Rle_lt_trans with (q * a); [|exact QA]. apply Rmult_le_compat_r; [exact A|apply Rmin_r].
  - apply Rle_lt_trans with (e * a'); [|now apply E]. apply Rmult_le_compat_r; [apply (H a' t'); now right|apply Rmin_l].
Qed.

Section Dom.
Variables RF RB : nat -> R.
Hypothesis NF : forall n, 0 <= RF n.
Hypothesis NB : forall n, 0 <= RB n.
Let tm := term22 RF RB.
Hypothesis POS : forall j, In j acts -> 0 < tm (terminal j).
Lemma tm_nonneg t : 0 <= tm t.
Proof. destruct t as [[|] n]; unfold tm, term22; cbn [fst snd]; auto. Qed.
Lemma sumT_nonneg l : 0 <= sumT l tm.
Proof. induction l as [|t l IH]; [cbn; lra|]. change (sumT (t :: l) tm) with (tm t + sumT l tm). pose proof (tm_nonneg t). lra. Qed.
Lemma sumL_le l f g : (forall i, In i l -> f i <= g i) -> sumL l f <= sumL l g.
Proof. induction l as [|a l IH]; intros H; [rewrite !sumL_nil; lra|]. rewrite !sumL_cons. pose proof (H a (or_introl eq_refl)). assert (sumL l f <= sumL l g) by (apply IH; intros; apply H; now right). lra. Qed.
Lemma occLe_sum l l' : occLe l l' = true -> sumT l tm <= sumT l' tm.
Proof.
  intros H. unfold occLe in H. apply andb_prop in H as [H1 H2]. rewrite forallb_forall in H1, H2.
  rewrite !(sumT_occ 206) by (intros t T0; apply Nat.ltb_lt, H2, in_or_app; tauto).
  apply sumL_le. intros n I. specialize (H1 n I). apply andb_prop in H1 as [F B]. apply Nat.leb_le, le_INR in F, B.
  apply Rplus_le_compat; apply Rmult_le_compat_r; auto; apply tm_nonneg.
Qed.
Lemma sum_sumT ts : sum22 RF RB ts = sumT ts tm.
Proof.
  unfold sum22. assert (G : forall a, fold_left (fun s t => s + term22 RF RB t) ts a = a + sumT ts tm).
  { induction ts as [|t ts IH]; intros a; [cbn; lra|]. cbn [fold_left]. rewrite IH. change (sumT (t :: ts) tm) with (term22 RF RB t + sumT ts tm). lra. }
  rewrite G. lra.
Qed.
Lemma sumT_flat {A} (g : A -> list (dir * nat)) l : sumT (flat_map g l) tm = fold_right (fun i s => sumT (g i) tm + s) 0 l.
Proof. induction l as [|a l IH]; [reflexivity|]. cbn [flat_map fold_right]. rewrite sumT_app, IH. reflexivity. Qed.
Lemma domOK_all j : In j acts -> domOK j = true.
Proof. pose proof dom_ok as D0. rewrite forallb_forall in D0. apply D0. Qed.
Lemma rowOf_in j : In j acts -> In (rowOf j) red22_rows /\ rId (rowOf j) = j.
Proof.
  intros J. pose proof (domOK_all j J) as D0. unfold domOK in D0. repeat apply andb_prop in D0 as [D0 ?]. split.
  - rewrite <- rowOf_ok. now apply in_map.
  - match goal with H : inb (rId (rowOf j)) [j] = true |- _ => apply inb_iff in H; destruct H as [H|[]]; congruence end.
Qed.
Lemma den_pos j : In j acts -> 0 < sum22 RF RB (rDen (rowOf j)).
Proof.
  intros J. pose proof (domOK_all j J) as D0. unfold domOK in D0. do 6 apply andb_prop in D0 as [D0 _]. apply andb_prop in D0 as [_ D0]. apply occLe_sum in D0.
  rewrite sum_sumT. pose proof (POS j J) as P. change (sumT [terminal j] tm) with (tm (terminal j) + 0) in D0. lra.
Qed.
Lemma den_others j : In j acts -> (if (j =? 1)%nat then 0 else tm (terminal j)) + sumT (others j) tm <= sum22 RF RB (rDen (rowOf j)).
Proof.
  intros J. pose proof (domOK_all j J) as D0. unfold domOK in D0. do 7 apply andb_prop in D0 as [D0 _]. apply occLe_sum in D0.
  rewrite sum_sumT. destruct (j =? 1)%nat; [lra|]. exact D0.
Qed.
Lemma col_nil (l : list (nat * list (dir * nat))) j : ~ In j (map fst l) -> flat_map (fun jt => if (fst jt =? j)%nat then snd jt else []) l = [].
Proof. induction l as [|[k u] l IH]; intros H; [reflexivity|]. cbn [flat_map map fst In] in *. destruct (Nat.eqb_spec k j); [tauto|]. apply IH. tauto. Qed.
Lemma colOf_out r j : ~ In j (map fst (rCols r)) -> colOf r j = [].
Proof. apply col_nil. Qed.
Lemma colOf_in r j ts : NoDup (map fst (rCols r)) -> In (j, ts) (rCols r) -> colOf r j = ts.
Proof.
  unfold colOf. generalize (rCols r). induction l as [|[j' ts'] l IH]; intros ND I; [easy|]. cbn [map fst flat_map snd] in *. inversion ND as [|? ? NA NL]; subst.
  destruct I as [E|I].
  - injection E as -> ->. rewrite Nat.eqb_refl, (col_nil l j NA). apply app_nil_r.
  - destruct (Nat.eqb_spec j' j) as [->|]; [exfalso; apply NA; change j with (fst (j, ts)); now apply in_map|]. cbn [app]. now apply IH.
Qed.
Section WithA.
Variable A : matrix.
Hypothesis EA : initA RF RB red22_rows (fun _ _ => 0) = Some A.
Lemma A_entry i j : In i acts -> A i j = sumT (colOf (rowOf i) j) tm / sum22 RF RB (rDen (rowOf i)).
Proof.
  intros I. destruct tok as (PO & FO & BO & ND & Z0 & NC & NP & IP & NBk). destruct (rowOf_in i I) as [R0 RI].
  destruct (initA_spec RF RB red22_rows (fun _ _ => 0) ND (fun r R1 => proj1 (NC r R1))) as [_ H]. destruct (H A EA) as [_ K]. destruct (K (rowOf i) R0) as [K1 K2].
  rewrite RI in K1, K2. destruct (in_dec Nat.eq_dec j (map fst (rCols (rowOf i)))) as [J|NJ].
  - apply in_map_iff in J as ([j' ts] & E & J). cbn [fst] in E. subst j'. rewrite (K2 j ts J), (colOf_in _ j ts (proj1 (NC _ R0)) J), sum_sumT. reflexivity.
  - rewrite (K1 j NJ), (colOf_out _ _ NJ). cbn. unfold Rdiv. lra.
Qed.
Lemma A_nonneg i j : In i acts -> 0 <= A i j.
Proof.
  intros I. rewrite A_entry by exact I. pose proof (den_pos i I). pose proof (sumT_nonneg (colOf (rowOf i) j)). apply Rmult_le_pos; [assumption|]. left. now apply Rinv_0_lt_compat.
Qed.
Lemma dominated : exists w, dom acts A w.
Proof.
  destruct tok as (PO & FO & BO & ND & Z0 & NC & NP & IP & NBk).
  destruct (small_eps (map (fun j => (sumT (colOf (rowOf 1) j) tm, tm (terminal j))) acts)) as (e & E0 & E).
  { intros a t I. apply in_map_iff in I as (j & X & J). injection X as <- <-. split; [apply sumT_nonneg|now apply POS]. }
  set (v := fun i => if (i =? 1)%nat then 1 + e else 1). assert (V : forall i, 1 <= v i) by (intros i; unfold v; destruct (i =? 1)%nat; lra).
  exists (fun i => v i * sum22 RF RB (rDen (rowOf i))). split; [|split; [|split]].
  - intros i j I J _. now apply A_nonneg. - intros i I. now apply A_nonneg.
  - intros i I. pose proof (den_pos i I). specialize (V i). apply Rmult_lt_0_compat; lra.
  - intros j J.
    assert (W : sumL (rm j acts) (fun i => v i * sum22 RF RB (rDen (rowOf i)) * A i j) = sumL (rm j acts) (fun i => v i * sumT (colOf (rowOf i) j) tm)).
    { apply sumL_ext. intros i I. apply in_rm in I as [I _]. rewrite A_entry by exact I. pose proof (den_pos i I). field. lra. }
    rewrite W. clear W. pose proof (den_others j J) as DO. unfold others in DO. rewrite sumT_flat in DO. fold (sumL (rm j acts) (fun i => sumT (colOf (rowOf i) j) tm)) in DO.
    pose proof (den_pos j J) as DP. unfold v at 2. destruct (Nat.eqb_spec j 1) as [->|NJ].
    + rewrite (sumL_ext _ _ (fun i => sumT (colOf (rowOf i) 1) tm)).
      2:{ intros i I. apply in_rm in I as [_ I]. unfold v. destruct (Nat.eqb_spec i 1); [contradiction|]. lra. }
      assert (0 < e * sum22 RF RB (rDen (rowOf 1))) by (now apply Rmult_lt_0_compat). lra.
    + assert (I1 : In 1%nat (rm j acts)). { apply in_rm. split; [now left|congruence]. }
      rewrite (sumL_take 1 (rm j acts)) in DO |- * by (try apply nodup_rm; assumption). unfold v at 1. cbn [Nat.eqb].
      rewrite (sumL_ext (rm 1 (rm j acts)) (fun i => v i * sumT (colOf (rowOf i) j) tm) (fun i => sumT (colOf (rowOf i) j) tm)).
      2:{ intros i I. apply in_rm in I as [_ I]. unfold v. destruct (Nat.eqb_spec i 1); [contradiction|]. lra. }
      assert (X : e * sumT (colOf (rowOf 1) j) tm < tm (terminal j)).
      { apply E. apply in_map_iff. exists j. split; [reflexivity|exact J]. }
      lra.
Qed.
End WithA.
Lemma steady_defined : exists XQ, steady22 red22 RF RB = Some XQ /\ forall k, (k < 10)%nat -> 0 <= XQ k.
Proof.
  destruct tok as (PO & FO & BO & ND & Z0 & NC & NP & IP & NBk).
  destruct (initA_spec RF RB red22_rows (fun _ _ => 0) ND (fun r R1 => proj1 (NC r R1))) as [H0 _].
  destruct (proj2 H0) as [A EA].
  { intros r R0. assert (I : In (rId r) acts) by (now apply in_map). destruct (rowOf_in _ I) as [R1 R2]. rewrite <- (row_unique _ _ R1 R0 R2). pose proof (den_pos _ I). lra. }
  destruct (dominated A EA) as [w DM]. destruct (steady_some RF RB A EA) as [S1 S2].
  destruct (proj2 S1 (dom_pivots _ acts A w ND NP IP DM)) as [XQ EX]. exists XQ. split; [exact EX|]. intros k K.
  destruct (S2 XQ EX) as (X & XE & SO). rewrite XE.
  apply (dom_nonneg (map fst red22_blocks) acts A w X ND NP IP); auto.
  - intros i I NI. right. assert (i = 3%nat) as ->.
    { unfold acts in I. cbn in I. cbn in NI. intuition congruence. }
    exists [1; 2]%nat, [4; 5; 6; 7; 8; 9; 10]%nat. split; [reflexivity|]. cbn. intuition.
  - unfold acts. cbn. lia.
Qed.
End Dom.

(** with oxygen present the rates exist, are non-negative, and so is the steady-state solution *)
Lemma netRates_defined p T Y : 0 < p -> 1 <= T -> (forall n, (0 <= n < 22)%Z -> 0 <= Y n) -> 0 < Y 3%Z ->
  exists XQ rs, netRates red22 p T Y = Some (XQ, rop22 red22 rs XQ) /\ (forall k, (k < 10)%nat -> 0 <= XQ k) /\ steady22 red22 (rfOf red22 rs) (rbOf red22 rs) = Some XQ /\
    rates22 T (cs22 red22 p T Y) (eg22 red22 T) red22_reactions (kvals red22_reactions T) = Some rs /\ (forall n, 0 <= rfOf red22 rs n /\ 0 <= rbOf red22 rs n).
Proof.
  intros HP HT HY H3. set (cs := cs22 red22 p T Y).
  assert (W : forall i, (i < 22)%nat -> 0 < decR (nth i (mW red22) (D 1 0))).
  { intros i I. apply pos_decR. assert (C : forallb pos red22_W = true) by (vm_compute; reflexivity). rewrite forallb_forall in C. apply C. apply nth_In. exact I. }
  set (c := fun i => Y (Z.of_nat i) / decR (nth i (mW red22) (D 1 0))).
  assert (C0 : forall i, (i < 22)%nat -> 0 <= c i) by (intros i I; specialize (W i I); apply Rmult_le_pos; [apply HY; lia|left; now apply Rinv_0_lt_compat]).
  assert (C3 : 0 < c 3%nat) by (apply Rdiv_lt_0_compat; [exact H3|apply W; lia]).
  assert (S0 : 0 < sumTo 22 c).
  { rewrite sumTo_sumL, (sumL_take 3) by (try apply seq_NoDup; apply in_seq; lia). apply Rplus_lt_le_0_compat; [exact C3|]. apply sumL_nonneg. intros i I. apply in_rm in I as [I _]. apply in_seq in I. apply C0. lia. }
  assert (Q : 0 < p / (sumTo 22 c * T * (8314510 / 10 ^ 6 * 10 ^ 7))).
  { apply Rdiv_lt_0_compat; [exact HP|]. apply Rmult_lt_0_compat; [apply Rmult_lt_0_compat; lra|]. apply Rmult_lt_0_compat; [|apply pow_lt; lra]. apply Rdiv_lt_0_compat; [lra|apply pow_lt; lra]. }
  assert (CS : forall i, (i < 22)%nat -> 0 <= cs i) by (intros i I; apply Rmult_le_pos; [now apply C0|left; exact Q]).
  assert (CS3 : 0 < cs 3%nat) by (apply Rmult_lt_0_compat; [exact C3|exact Q]).
  pose proof mech_ok as MO. apply andb_prop in MO as [MK MR]. destruct (kvals_good red22_reactions T MK) as [KL KP].
  destruct (rates22_good cs CS T (eg22 red22 T) HT CS3 (fun i => exp_pos _) red22_reactions (kvals red22_reactions T) KL KP MR) as (rs & ER & LR & G).
  assert (GG : forall n, 0 <= fst (nth n rs (0, 0)) /\ 0 <= snd (nth n rs (0, 0))).
  { intros n. destruct (lt_dec n (length red22_reactions)) as [L|L]; [destruct (G n L) as (A & B & _); now split|]. rewrite nth_overflow by lia. cbn [fst snd]. lra. }
  assert (NF : forall n, 0 <= rfOf red22 rs n) by (intros n; unfold rfOf; destruct (existsb _ _); [lra|apply GG]).
  assert (NB : forall n, 0 <= rbOf red22 rs n) by (intros n; unfold rbOf; destruct (existsb _ _); [lra|apply GG]).
  destruct (steady_defined (rfOf red22 rs) (rbOf red22 rs) NF NB) as (XQ & EX & XN).
  { intros j J. pose proof dom_ok as DK. rewrite forallb_forall in DK. pose proof (DK j J) as D0. unfold domOK in D0.
    apply andb_prop in D0 as [D0 O2]. apply andb_prop in D0 as [D0 TH]. apply andb_prop in D0 as [D0 ZR]. apply andb_prop in D0 as [_ LT].
    apply Nat.ltb_lt in LT. apply negb_true_iff in TH, ZR. destruct (G (snd (terminal j)) LT) as (_ & _ & GP). destruct (GP TH) as [G1 G2]. fold (rxn (snd (terminal j))) in G1, G2.
    unfold term22. unfold zeroed in ZR. destruct (fst (terminal j)).
    - unfold rfOf. cbn [mZeroF red22]. fold (inb (snd (terminal j)) red22_zeroF). rewrite ZR. now apply G1.
    - unfold rbOf. cbn [mZeroB red22]. fold (inb (snd (terminal j)) red22_zeroB). rewrite ZR. now apply G2. }
  exists XQ, rs. unfold netRates. cbv zeta. fold cs. cbn [mReacs red22]. rewrite ER. fold red22 in EX |- *. rewrite EX. split; [reflexivity|]. split; [exact XN|]. split; [reflexivity|]. split; [reflexivity|]. split; auto.
Qed.
