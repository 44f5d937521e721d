(** Lemmas about species sums and the composition of a cell. *)
From Coq Require Import Reals ZArith List Bool Lia Lra.
From Verif Require Import M_Topology M_Halo M_Grid M_Metrics S_Metrics S_Sum M_Flux M_FluxKernels S_FluxKernels M_Thermo S_Thermo L_Grid1 L_Sum.
Import ListNotations.
Open Scope R_scope.

Lemma accum_sum lo hi f : accum lo hi f = sumZ lo hi f.
Proof.
  unfold accum, sumZ. assert (G: forall l a, fold_left (fun s n => s + f n) l a = a + fold_right Rplus 0 (map f l)).
  { induction l as [|x l IH]; intros a; cbn [fold_left map fold_right]; [lra|]. rewrite IH. lra. }
  rewrite G. lra.
Qed.
Lemma lastY_sum nsp y : lastY nsp y = 1 - sumZ 0 (nsp - 1) y.
Proof.
  unfold lastY, sumZ. assert (G: forall l a, fold_left (fun s n => s - y n) l a = a - fold_right Rplus 0 (map y l)).
  { induction l as [|x l IH]; intros a; cbn [fold_left map fold_right]; [lra|]. rewrite IH. lra. }
  now rewrite G.
Qed.
Lemma accum_ext lo hi f g : (forall n, (lo <= n < hi)%Z -> f n = g n) -> accum lo hi f = accum lo hi g.
Proof. intros. rewrite !accum_sum. now apply sumZ_ext. Qed.
Lemma sumZ_nonneg lo hi f : (forall i, (lo <= i < hi)%Z -> 0 <= f i) -> 0 <= sumZ lo hi f.
Proof. intros H. rewrite <- (sumZ_0 lo hi). now apply sumZ_le. Qed.
Lemma sumZ_ge_term lo hi f n : (forall i, (lo <= i < hi)%Z -> 0 <= f i) -> (lo <= n < hi)%Z -> f n <= sumZ lo hi f.
Proof.
  intros H Hn. unfold sumZ. assert (P: forall i, In i (zrange lo hi) -> 0 <= f i) by (intros i Hi; apply H; now apply zrange_in in Hi).
  assert (I: In n (zrange lo hi)) by (now apply zrange_in). clear H Hn. induction (zrange lo hi) as [|a l IH]; [destruct I|]. cbn [map fold_right].
  assert (PL: 0 <= fold_right Rplus 0 (map f l)).
  { assert (Q: forall i, In i l -> 0 <= f i) by (intros; apply P; now right). clear - Q. induction l as [|x l IH]; cbn [map fold_right]; [lra|].
    pose proof (Q x (or_introl eq_refl)). assert (0 <= fold_right Rplus 0 (map f l)) by (apply IH; intros; apply Q; now right). lra. }
  destruct I as [->|I]; [lra|]. pose proof (P a (or_introl eq_refl)). assert (f n <= fold_right Rplus 0 (map f l)) by (apply IH; auto; intros; apply P; now right). lra.
Qed.
(** weighted sums over all species including the implied one *)
Lemma sum_withLast nsp y : (1 <= nsp)%Z -> sumZ 0 nsp (withLast nsp y) = 1.
Proof.
  intros H. replace nsp with ((nsp - 1) + 1)%Z at 1 by lia. rewrite sumZ_snoc by lia.
  rewrite (sumZ_ext _ _ _ y). 2:{ intros i Hi. unfold withLast. destruct (Z.eqb_spec i (nsp - 1)); [lia|auto]. }
  unfold withLast. rewrite Z.eqb_refl. lra.
Qed.
Lemma withLast_nonneg nsp y n : validFracs nsp y -> (0 <= n < nsp)%Z -> 0 <= withLast nsp y n.
Proof. intros (A & B) H. unfold withLast. destruct (Z.eqb_spec n (nsp - 1)); [lra|]. apply A. lia. Qed.
Lemma weighted_lt nsp y f g : (1 <= nsp)%Z -> validFracs nsp y -> (forall n, (0 <= n < nsp)%Z -> f n < g n) ->
  sumZ 0 nsp (fun n => withLast nsp y n * f n) < sumZ 0 nsp (fun n => withLast nsp y n * g n).
Proof.
  intros Hn HV H. set (w := withLast nsp y).
  assert (D: sumZ 0 nsp (fun n => w n * (g n - f n)) <> 0).
  { intros E. assert (Z0: forall n, (0 <= n < nsp)%Z -> w n = 0).
    { intros n R0. pose proof (sumZ_ge_term 0 nsp (fun n => w n * (g n - f n)) n) as G. cbv beta in G. rewrite E in G.
      assert (P: forall i, (0 <= i < nsp)%Z -> 0 <= w i * (g i - f i)) by (intros; apply Rmult_le_pos; [now apply withLast_nonneg|specialize (H i H0); lra]).
      specialize (G P R0). specialize (P n R0). pose proof (H n R0). pose proof (withLast_nonneg nsp y n HV R0). fold (w n) in *. nra. }
    pose proof (sum_withLast nsp y Hn) as S. rewrite (sumZ_zero 0 nsp (withLast nsp y)) in S by exact Z0. lra. }
  assert (P: 0 <= sumZ 0 nsp (fun n => w n * (g n - f n))).
  { apply sumZ_nonneg. intros. apply Rmult_le_pos; [now apply withLast_nonneg|specialize (H i H0); lra]. }
  rewrite (sumZ_ext _ _ _ (fun n => w n * g n - w n * f n)) in D, P by (intros; ring). rewrite sumZ_minus in D, P. lra.
Qed.

Lemma composition_valid nsp y : validFracs nsp y -> forall n, composition nsp y n = withLast nsp y n.
Proof.
  intros (A & B) n. unfold composition. cbv zeta. rewrite accum_sum. destruct (Rlt_dec 1 (sumZ 0 (nsp - 1) y)); [lra|].
  unfold withLast. destruct (n =? nsp - 1)%Z; [apply lastY_sum|reflexivity].
Qed.
(** whatever the (non-negative) input fractions, the composition used is valid and its last entry is the implied one *)
Lemma composition_general nsp y : (forall n, (0 <= n < nsp - 1)%Z -> 0 <= y n) ->
  validFracs nsp (composition nsp y) /\ (forall n, (0 <= n < nsp)%Z -> composition nsp y n = withLast nsp (composition nsp y) n).
Proof.
  intros H. destruct (Rlt_dec 1 (sumZ 0 (nsp - 1) y)) as [G|G].
  - assert (E: forall n, composition nsp y n = if (n =? nsp - 1)%Z then 0 else y n / sumZ 0 (nsp - 1) y).
    { intros n. unfold composition. cbv zeta. rewrite accum_sum. destruct Rlt_dec; [reflexivity|contradiction]. }
    assert (S1: sumZ 0 (nsp - 1) (composition nsp y) = 1).
    { rewrite (sumZ_ext _ _ _ (fun n => / sumZ 0 (nsp - 1) y * y n)).
      - rewrite sumZ_scale. field. lra.
      - intros i Hi. rewrite E. destruct (Z.eqb_spec i (nsp - 1)); [lia|]. unfold Rdiv. ring. }
    assert (NN: forall n, (0 <= n < nsp - 1)%Z -> 0 <= composition nsp y n).
    { intros n Hn. rewrite E. destruct (Z.eqb_spec n (nsp - 1)); [lra|]. apply Rmult_le_pos; [now apply H|left; apply Rinv_0_lt_compat; lra]. }
    split; [split; [|lra]|].
    + intros n Hn. split; [now apply NN|]. rewrite <- S1. now apply sumZ_ge_term.
    + intros n Hn. unfold withLast. rewrite S1. destruct (Z.eqb_spec n (nsp - 1)); [|reflexivity]. rewrite E. subst n. rewrite Z.eqb_refl. lra.
  - assert (V: validFracs nsp y).
    { split; [|lra]. intros n Hn. split; [now apply H|]. eapply Rle_trans; [apply (sumZ_ge_term 0 (nsp - 1) y n); auto|lra]. }
    assert (E: forall n, composition nsp y n = withLast nsp y n) by (now apply composition_valid).
    assert (S1: sumZ 0 (nsp - 1) (composition nsp y) = sumZ 0 (nsp - 1) y).
    { apply sumZ_ext. intros i Hi. rewrite E. unfold withLast. destruct (Z.eqb_spec i (nsp - 1)); [lia|auto]. }
    split; [split|].
    + intros n Hn. rewrite E. unfold withLast. destruct (Z.eqb_spec n (nsp - 1)); [lia|]. now apply V.
    + rewrite S1. lra.
    + intros n Hn. rewrite E. unfold withLast. rewrite S1. destruct (n =? nsp - 1)%Z eqn:Q; [reflexivity|]. rewrite E. unfold withLast. now rewrite Q.
Qed.

Lemma isSpecies_iff nsp l : isSpecies nsp l = true <-> (5 <= l < 5 + nsp - 1)%Z.
Proof. unfold isSpecies. rewrite andb_true_iff, Z.leb_le, Z.ltb_lt. lia. Qed.
Lemma isSpecies_no nsp l : (l < 5)%Z -> isSpecies nsp l = false.
Proof. intros. destruct (isSpecies nsp l) eqn:E; auto. apply isSpecies_iff in E. lia. Qed.
Lemma clipPrims_range nsp q l : isSpecies nsp l = true -> 0 <= clipPrims nsp q l <= 1.
Proof. intros H. unfold clipPrims. rewrite H. split; [apply Rmax_r|]. apply Rmax_lub; [apply Rmin_r|lra]. Qed.
Lemma clipPrims_id nsp c l : validFracs nsp (fracs c) -> clipPrims nsp (cq c) l = cq c l.
Proof.
  intros (A & _). unfold clipPrims. destruct (isSpecies nsp l) eqn:E; auto. apply isSpecies_iff in E. specialize (A (l - 5)%Z). unfold fracs in A.
  replace (5 + (l - 5))%Z with l in A by lia. assert (0 <= cq c l <= 1) by (apply A; lia). rewrite Rmin_left, Rmax_left by lra. auto.
Qed.
Lemma primsY_nonneg nsp q n : (0 <= n < nsp - 1)%Z -> 0 <= clipPrims nsp q (5 + n)%Z.
Proof. intros. apply clipPrims_range. apply isSpecies_iff. lia. Qed.
Lemma rawConsY_range nsp Q n : 0 < Q 0%Z -> (0 <= n < nsp - 1)%Z -> 0 <= rawConsY nsp Q n <= 1.
Proof.
  intros Hr Hn. unfold rawConsY, clipCons. rewrite (isSpecies_no nsp 0) by lia. replace (isSpecies nsp (5 + n)) with true by (symmetry; apply isSpecies_iff; lia).
  set (x := Rmax (Rmin (Q (5 + n)%Z) (Q 0%Z)) 0). assert (0 <= x <= Q 0%Z) by (unfold x; split; [apply Rmax_r|apply Rmax_lub; [apply Rmin_r|lra]]).
  split; [apply Rmult_le_pos; [lra|left; now apply Rinv_0_lt_compat]|]. apply Rmult_le_reg_r with (Q 0%Z); [lra|]. unfold Rdiv. rewrite Rmult_assoc, Rinv_l by lra. lra.
Qed.
Lemma consQ_low nsp Q l : (l < 5)%Z -> consQ nsp Q l = Q l.
Proof. intros. unfold consQ. now rewrite isSpecies_no. Qed.
Lemma consQ_species nsp Q n : 0 < Q 0%Z -> (0 <= n < nsp - 1)%Z -> consQ nsp Q (5 + n)%Z = consY nsp Q n * Q 0%Z.
Proof.
  intros Hr Hn. unfold consQ. replace (isSpecies nsp (5 + n)) with true by (symmetry; apply isSpecies_iff; lia).
  replace (5 + n - 5)%Z with n by lia. destruct (Rlt_dec 1 (accum 0 (nsp - 1) (rawConsY nsp Q))) as [G|G]; auto.
  unfold consY, composition. cbv zeta. destruct Rlt_dec; [contradiction|]. destruct (Z.eqb_spec n (nsp - 1)); [lia|].
  unfold rawConsY. assert (E: clipCons nsp Q 0%Z = Q 0%Z) by (unfold clipCons; now rewrite isSpecies_no). rewrite E. field. lra.
Qed.
Lemma consY_valid nsp Q : 0 < Q 0%Z -> validFracs nsp (consY nsp Q) /\ (forall n, (0 <= n < nsp)%Z -> consY nsp Q n = withLast nsp (consY nsp Q) n).
Proof. intros H. apply composition_general. intros n Hn. now apply rawConsY_range. Qed.
Lemma primsY_valid nsp q : validFracs nsp (primsY nsp q) /\ (forall n, (0 <= n < nsp)%Z -> primsY nsp q n = withLast nsp (primsY nsp q) n).
Proof. apply composition_general. intros n Hn. now apply primsY_nonneg. Qed.
(** for valid fractions nothing is clipped or renormalised *)
Lemma primsY_id nsp c n : validFracs nsp (fracs c) -> (0 <= n < nsp - 1)%Z -> primsY nsp (cq c) n = fracs c n.
Proof.
  intros V Hn. unfold primsY. set (y := fun n0 => clipPrims nsp (cq c) (5 + n0)%Z).
  assert (Ey: forall m, y m = fracs c m) by (intros; unfold y, fracs; now apply clipPrims_id).
  assert (Vy: validFracs nsp y). { destruct V as (A & B). split; [intros; rewrite Ey; auto|]. rewrite (sumZ_ext _ _ _ (fracs c)); auto. }
  rewrite (composition_valid nsp y Vy). unfold withLast. destruct (Z.eqb_spec n (nsp - 1)); [lia|]. apply Ey.
Qed.
Lemma validFracs_ext nsp y z : (forall n, (0 <= n < nsp - 1)%Z -> y n = z n) -> validFracs nsp y -> validFracs nsp z.
Proof. intros E (A & B). split; [intros; rewrite <- E; auto|]. rewrite <- (sumZ_ext _ _ y); auto. Qed.
Lemma withLast_ext nsp y z : (forall n, (0 <= n < nsp - 1)%Z -> y n = z n) -> forall n, (0 <= n < nsp)%Z -> withLast nsp y n = withLast nsp z n.
Proof. intros E n Hn. unfold withLast. destruct (Z.eqb_spec n (nsp - 1)); [now rewrite (sumZ_ext _ _ y z)|]. apply E. lia. Qed.
(** composition is determined by the first ns-1 entries *)
Lemma consY_of_partials nsp Q y : 0 < Q 0%Z -> validFracs nsp y -> (forall n, (0 <= n < nsp - 1)%Z -> Q (5 + n)%Z = y n * Q 0%Z) ->
  forall n, (0 <= n < nsp)%Z -> consY nsp Q n = withLast nsp y n.
Proof.
  intros Hr V E n Hn.
  assert (R0: forall m, (0 <= m < nsp - 1)%Z -> rawConsY nsp Q m = y m).
  { intros m Hm. unfold rawConsY, clipCons. rewrite (isSpecies_no nsp 0) by lia. replace (isSpecies nsp (5 + m)) with true by (symmetry; apply isSpecies_iff; lia).
    rewrite E by auto. destruct V as (A & _). specialize (A m Hm). rewrite Rmin_left, Rmax_left by nra. field. lra. }
  unfold consY. rewrite composition_valid.
  - now apply withLast_ext.
  - eapply validFracs_ext; [|exact V]. intros. symmetry. now apply R0.
Qed.
Lemma mixR_gas th Y y : (forall n, (0 <= n < ns th)%Z -> Y n = withLast (ns th) y n) -> mixR th Y = gasConstant th y.
Proof. intros E. unfold mixR, gasConstant. rewrite accum_sum, Rmult_comm. f_equal. apply sumZ_ext. intros. now rewrite E. Qed.
Lemma mixCp0_heat th Y y : (forall n, (0 <= n < ns th)%Z -> Y n = withLast (ns th) y n) -> mixCp0 th Y = heatCapacity th y.
Proof. intros E. unfold mixCp0, heatCapacity. rewrite accum_sum. apply sumZ_ext. intros. now rewrite E. Qed.
Lemma gas_pos th y : goodGas th -> validFracs (ns th) y -> 0 < gasConstant th y.
Proof.
  intros (A & B & C) V. unfold gasConstant. apply Rmult_lt_0_compat; auto.
  rewrite (sumZ_ext _ _ _ (fun n => withLast (ns th) y n * / MW th n)) by reflexivity.
  rewrite <- (sumZ_0 0 (ns th)). rewrite (sumZ_ext _ _ (fun _ => 0) (fun n => withLast (ns th) y n * 0)) by (intros; ring).
  apply weighted_lt; auto. intros. apply Rinv_0_lt_compat. auto.
Qed.
Lemma gas_lt_cp th y : goodGas th -> goodCp th -> validFracs (ns th) y -> gasConstant th y < heatCapacity th y.
Proof.
  intros (A & B & C) D V. unfold gasConstant, heatCapacity. rewrite <- sumZ_scale.
  rewrite (sumZ_ext _ _ _ (fun n => withLast (ns th) y n * (Ru th / MW th n))) by (intros; unfold Rdiv; ring). now apply weighted_lt.
Qed.
