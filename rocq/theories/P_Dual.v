(** Properties C48, C91: the implicit solve of the dual-time integrator. *)
From Coq Require Import Reals ZArith List Bool Lia Lra FunctionalExtensionality.
From Verif Require Import M_Topology M_Halo M_Grid M_Metrics S_Metrics S_Sum M_Flux M_FluxKernels S_FluxKernels M_Thermo S_Thermo L_Grid1 L_Sum L_Vec L_Thermo P_Thermo P_Tpg M_Dual S_Dual L_Dual.
Import ListNotations.
Open Scope R_scope.

(** C48.  For every number of equations, every nonsingular matrix and every right-hand side the in-place LU with row pivoting returns the
    solution of the system, and it is the only one. *)
Theorem C48_solves : forall ne A b, (0 <= ne)%Z -> nonsingular ne A ->
  (forall i, (0 <= i < ne)%Z -> mulMV ne A (luSolve ne A b) i = b i) /\
  (forall x, (forall i, (0 <= i < ne)%Z -> mulMV ne A x i = b i) -> forall j, (0 <= j < ne)%Z -> x j = luSolve ne A b j).
Proof.
  intros ne A b Hn HA. assert (S: forall i, (0 <= i < ne)%Z -> mulMV ne A (luSolve ne A b) i = b i) by (intros i Hi; apply luSolve_correct; auto).
  split; auto. intros x Hx j Hj. apply Rminus_diag_uniq. apply (HA (fun j => x j - luSolve ne A b j)); auto. intros i Hi.
  transitivity (mulMV ne A x i - mulMV ne A (luSolve ne A b) i).
  - unfold mulMV. rewrite <- sumZ_minus. apply sumZ_ext. intros; ring.
  - rewrite S, Hx by auto. ring.
Qed.
(** the factorisation itself: P A = L U with unit lower and nonzero-diagonal upper factors read from the overwritten matrix *)
Theorem C48_factors : forall ne A, (0 <= ne)%Z -> nonsingular ne A -> let G := fst (lu ne A) in let s := snd (lu ne A) in
  (forall i, (0 <= i < ne)%Z -> (0 <= s i < ne)%Z) /\ (forall i j, (0 <= i < ne)%Z -> (0 <= j < ne)%Z -> s i = s j -> i = j) /\
  (forall k, (0 <= k < ne)%Z -> G k k <> 0) /\
  forall i j, (0 <= i < ne)%Z -> (0 <= j < ne)%Z ->
    A (s i) j = sumZ 0 ne (fun k => (if (i <? k)%Z then 0 else if (i =? k)%Z then 1 else G i k) * (if (j <? k)%Z then 0 else G k j)).
Proof.
  intros ne A Hn HA. cbv zeta. destruct (lu_inv ne A Hn HA) as ((t & H1) & H2 & H3). repeat split; try (intros; apply H1; auto); auto.
  - intros i j Hi Hj E. destruct (H1 i Hi) as (_ & _ & T1 & _), (H1 j Hj) as (_ & _ & T2 & _). congruence.
  - intros i j Hi Hj. rewrite (H3 i j Hi Hj). unfold rest. destruct (Z.leb_spec ne i); [lia|]. cbn [andb]. rewrite Rplus_0_r. reflexivity.
Qed.
(** a matrix with a zero in the first pivot position, solved by exchanging rows *)
Example C48_nonvacuous : nonsingular 2 (fun i j => if (i =? j)%Z then 0 else 1) /\ luSolve 2 (fun i j => if (i =? j)%Z then 0 else 1) (fun i => IZR i + 3) 0%Z = 4.
Proof.
  assert (N: nonsingular 2 (fun i j => if (i =? j)%Z then 0 else 1)).
  { intros x H j Hj. pose proof (H 0%Z ltac:(lia)) as H0. pose proof (H 1%Z ltac:(lia)) as H1. unfold mulMV, sumZ in H0, H1. change (zrange 0 2) with [0; 1]%Z in H0, H1. cbn [map fold_right Z.eqb Pos.eqb] in H0, H1.
    assert (j = 0 \/ j = 1)%Z as [-> | ->] by lia; lra. }
  split; auto. destruct (C48_solves 2 _ (fun i => IZR i + 3) ltac:(lia) N) as (S & _). specialize (S 1%Z ltac:(lia)). unfold mulMV, sumZ in S. change (zrange 0 2) with [0; 1]%Z in S. cbn [map fold_right Z.eqb Pos.eqb] in S. lra.
Qed.

(** * C91: the matrix *)
Lemma sumZ_shift a n f : sumZ a (a + n) f = sumZ 0 n (fun k => f (a + k)%Z).
Proof. unfold sumZ. replace (zrange a (a + n)) with (map (fun i => a + i)%Z (zrange 0 n)) by (rewrite L_Halo1.zrange_map_add; f_equal; lia). rewrite map_map. reflexivity. Qed.
Lemma sumZ_last n f : (1 <= n)%Z -> sumZ 0 n f = sumZ 0 (n - 1) f + f (n - 1)%Z.
Proof. intros H. replace (sumZ 0 n f) with (sumZ 0 (n - 1 + 1) f) by (f_equal; lia). apply sumZ_snoc. lia. Qed.
Lemma sum_ne nsp f : (1 <= nsp)%Z -> sumZ 0 (5 + nsp - 1) f = f 0%Z + f 1%Z + f 2%Z + f 3%Z + f 4%Z + sumZ 0 (nsp - 1) (fun n => f (5 + n)%Z).
Proof.
  intros H. rewrite (sumZ_split 0 5) by lia. replace (5 + nsp - 1)%Z with (5 + (nsp - 1))%Z by lia. rewrite sumZ_shift. f_equal. unfold sumZ. change (zrange 0 5) with [0; 1; 2; 3; 4]%Z. cbn [map fold_right]. ring.
Qed.
Section Rows.
Variable d : dualCell.
Hypothesis Hns : (1 <= dc_ns d)%Z.
Variable Th : R.
Variable x : Z -> R.
Let ne := (5 + dc_ns d - 1)%Z.
Let rT := - dc_rho d / dc_T d.
Definition drho : R := Th * x 0%Z + - dc_rho d / dc_T d * x 4%Z + sumZ 0 (dc_ns d - 1) (fun n => dc_rhoY d n * x (5 + n)%Z).
Ltac rows := unfold mulMV, ne; rewrite sum_ne by auto; unfold gammaMat; cbn [Z.eqb Pos.eqb Z.ltb Z.compare Pos.compare Pos.compare_cont].
Ltac spec5 n := replace (5 + n =? 0)%Z with false by (symmetry; apply Z.eqb_neq; lia); replace (5 + n <? 4)%Z with false by (symmetry; apply Z.ltb_ge; lia);
    replace (5 + n =? 4)%Z with false by (symmetry; apply Z.eqb_neq; lia); replace (5 + n - 5)%Z with n by lia.
Lemma row0 : mulMV ne (gammaMat d Th) x 0 = drho.
Proof. rows. unfold drho. rewrite (sumZ_ext 0 _ _ (fun n => dc_rhoY d n * x (5 + n)%Z)); [ring|]. intros n Hn. spec5 n. ring. Qed.
Lemma row1 : mulMV ne (gammaMat d Th) x 1 = drho * dc_u d + dc_rho d * x 1%Z.
Proof. rows. unfold drho. rewrite (sumZ_ext 0 _ _ (fun n => dc_u d * (dc_rhoY d n * x (5 + n)%Z))); [rewrite sumZ_scale; ring|]. intros n Hn. spec5 n. ring. Qed.
Lemma row2 : mulMV ne (gammaMat d Th) x 2 = drho * dc_v d + dc_rho d * x 2%Z.
Proof. rows. unfold drho. rewrite (sumZ_ext 0 _ _ (fun n => dc_v d * (dc_rhoY d n * x (5 + n)%Z))); [rewrite sumZ_scale; ring|]. intros n Hn. spec5 n. ring. Qed.
Lemma row3 : mulMV ne (gammaMat d Th) x 3 = drho * dc_w d + dc_rho d * x 3%Z.
Proof. rows. unfold drho. rewrite (sumZ_ext 0 _ _ (fun n => dc_w d * (dc_rhoY d n * x (5 + n)%Z))); [rewrite sumZ_scale; ring|]. intros n Hn. spec5 n. ring. Qed.
Lemma row4 : mulMV ne (gammaMat d Th) x 4 = drho * dc_H d + dc_T d * (- dc_rho d / dc_T d) / dc_rho d * x 0%Z +
  dc_rho d * (dc_u d * x 1%Z + dc_v d * x 2%Z + dc_w d * x 3%Z) + dc_rho d * dc_cp d * x 4%Z +
  dc_rho d * sumZ 0 (dc_ns d - 1) (fun n => (dc_h d (5 + n)%Z - dc_h d (5 + dc_ns d - 1)%Z) * x (5 + n)%Z).
Proof.
  rows. unfold drho. rewrite (sumZ_ext 0 _ _ (fun n => dc_H d * (dc_rhoY d n * x (5 + n)%Z) + dc_rho d * ((dc_h d (5 + n)%Z - dc_h d (5 + dc_ns d - 1)%Z) * x (5 + n)%Z))).
  - rewrite sumZ_plus, !sumZ_scale. ring.
  - intros n Hn. spec5 n. ring.
Qed.
Lemma rowS n : (0 <= n < dc_ns d - 1)%Z -> mulMV ne (gammaMat d Th) x (5 + n) = drho * dc_Y d n + dc_rho d * x (5 + n)%Z.
Proof.
  intros Hn. unfold mulMV, ne. rewrite sum_ne by auto. unfold gammaMat. spec5 n. cbn [Z.eqb Pos.eqb Z.ltb Z.compare Pos.compare Pos.compare_cont].
  replace (5 + n =? 1)%Z with false by (symmetry; apply Z.eqb_neq; lia). replace (5 + n =? 2)%Z with false by (symmetry; apply Z.eqb_neq; lia). replace (5 + n =? 3)%Z with false by (symmetry; apply Z.eqb_neq; lia).
  rewrite (sumZ_ext 0 _ _ (fun m => dc_Y d n * (dc_rhoY d m * x (5 + m)%Z) + dc_rho d * ((if (m =? n)%Z then 1 else 0) * x (5 + m)%Z))).
  - rewrite sumZ_plus, !sumZ_scale. assert (E: sumZ 0 (dc_ns d - 1) (fun m => (if (m =? n)%Z then 1 else 0) * x (5 + m)%Z) = x (5 + n)%Z).
    { rewrite (sumZ_split 0 n), (sumZ_cons n) by lia. rewrite (sumZ_zero 0 n), (sumZ_zero (n + 1)); [rewrite Z.eqb_refl; ring| |]; intros m Hm; destruct (Z.eqb_spec m n); try lia; ring. }
    rewrite E. unfold drho. ring.
  - intros m Hm. spec5 m. destruct (Z.eqb_spec (5 + n) (5 + m)), (Z.eqb_spec m n); try lia; ring.
Qed.
End Rows.

(** a cell whose stored density, heat capacity and enthalpies are those of an ideal gas with species enthalpies hs *)
Definition idealCell (th : thtr) (hs : Z -> R -> R) (cps : Z -> R) (c : cell) : Prop :=
  goodGas th /\ validFracs (ns th) (fracs c) /\ 0 < cq c 0%Z /\ 0 < cq c 4%Z /\
  cQ c 0%Z = density th (cq c) /\ ch c 1%Z = sumZ 0 (ns th) (fun n => withLast (ns th) (fracs c) n * cps n) /\
  ch c 2%Z = cQ c 0%Z * enthalpyOf th hs (cq c) /\ (forall n, (0 <= n < ns th)%Z -> ch c (5 + n)%Z = hs n (cq c 4%Z)) /\
  (forall n, (0 <= n < ns th)%Z -> derivable_pt_lim (hs n) (cq c 4%Z) (cps n)) /\
  gasConstant th (fracs c) < ch c 1%Z.
Lemma dualY th c : (1 <= ns th)%Z -> forall n, (0 <= n < ns th)%Z -> dc_Y (dualData th c) n = withLast (ns th) (fracs c) n.
Proof. intros H n Hn. unfold dualData. cbn [dc_Y]. unfold withLast. destruct (Z.eqb_spec n (ns th - 1)); auto. rewrite lastY_sum. reflexivity. Qed.
Lemma dual_rhoY th c n : goodGas th -> validFracs (ns th) (fracs c) -> 
  dc_rhoY (dualData th c) n = - cQ c 0%Z * (Ru th / gasConstant th (fracs c) * (1 / MW th n - 1 / MW th (ns th - 1)%Z)).
Proof.
  intros G V. destruct G as (G1 & G2 & G3). pose proof (gas_pos th (fracs c) (conj G1 (conj G2 G3)) V) as RP. assert (DY := dualY th c G1). unfold dualData in *. cbn [dc_rhoY dc_Y] in *.
  set (Y := fun n => if (n =? ns th - 1)%Z then lastY (ns th) (fun n => cq c (5 + n)%Z) else cq c (5 + n)%Z) in *.
  assert (DEN: accum 0 (ns th - 1) (fun n => Y n / MW th n) + Y (ns th - 1)%Z / MW th (ns th - 1)%Z = gasConstant th (fracs c) / Ru th).
  { unfold gasConstant. rewrite accum_sum. transitivity (sumZ 0 (ns th) (fun n => Y n / MW th n)).
    - rewrite (sumZ_last (ns th)) by lia. reflexivity.
    - rewrite (sumZ_ext 0 (ns th) _ (fun n => withLast (ns th) (fracs c) n / MW th n)) by (intros m Hm; rewrite <- DY by auto; reflexivity). field. lra. }
  change (- cQ c 0%Z * (accum 0 (ns th) (fun n => MW th n * (Y n / MW th n / (accum 0 (ns th - 1) (fun n => Y n / MW th n) + Y (ns th - 1)%Z / MW th (ns th - 1)%Z))) * (1 / MW th n - 1 / MW th (ns th - 1)%Z)) =
    - cQ c 0%Z * (Ru th / gasConstant th (fracs c) * (1 / MW th n - 1 / MW th (ns th - 1)%Z))).
  rewrite DEN. set (D := gasConstant th (fracs c) / Ru th) in *. assert (D0: 0 < D) by (apply Rdiv_lt_0_compat; lra).
  assert (MX: accum 0 (ns th) (fun n => MW th n * (Y n / MW th n / D)) = 1 / D).
  { rewrite accum_sum. rewrite (sumZ_ext 0 (ns th) _ (fun n => / D * withLast (ns th) (fracs c) n)).
    - rewrite sumZ_scale, sum_withLast by auto. field. lra.
    - intros m Hm. rewrite (DY m Hm : Y m = _). field. specialize (G3 m Hm). lra. }
  rewrite MX. replace (1 / D) with (Ru th / gasConstant th (fracs c)) by (unfold D; field; lra). reflexivity.
Qed.

(** * derivative of the conserved variables *)
Section Jacobian.
Variable th : thtr.
Variable hs : Z -> R -> R.
Variable cps : Z -> R.
Variable c : cell.
Hypothesis HI : idealCell th hs cps c.
Variable d : Z -> R.
Let q := cq c.
Let qe (e : R) : Z -> R := fun m => q m + e * d m.
Let nsp := ns th.
Let y := fracs c.
Definition R1 : R := Ru th * sumZ 0 (ns th - 1) (fun n => d (5 + n)%Z * (1 / MW th n - 1 / MW th (ns th - 1)%Z)).
Lemma affine_sum (g : Z -> R) e : (1 <= nsp)%Z -> sumZ 0 nsp (fun n => withLast nsp (fun n => qe e (5 + n)%Z) n * g n) =
  sumZ 0 nsp (fun n => withLast nsp y n * g n) + e * sumZ 0 (nsp - 1) (fun n => d (5 + n)%Z * (g n - g (nsp - 1)%Z)).
Proof.
  intros H. rewrite !(sumZ_last nsp) by lia. unfold withLast. rewrite Z.eqb_refl.
  rewrite (sumZ_ext 0 (nsp - 1) (fun i => (if (i =? nsp - 1)%Z then _ else _) * g i) (fun n => y n * g n + e * (d (5 + n)%Z * g n))).
  2: { intros n Hn. destruct (Z.eqb_spec n (nsp - 1)); [lia|]. unfold qe, y, fracs, q. ring. }
  rewrite (sumZ_ext 0 (nsp - 1) (fun n => (if (n =? nsp - 1)%Z then 1 - sumZ 0 (nsp - 1) y else y n) * g n) (fun n => y n * g n)).
  2: { intros n Hn. destruct (Z.eqb_spec n (nsp - 1)); [lia|]. reflexivity. }
  rewrite (sumZ_ext 0 (nsp - 1) (fun n => d (5 + n)%Z * (g n - g (nsp - 1)%Z)) (fun n => d (5 + n)%Z * g n - g (nsp - 1)%Z * d (5 + n)%Z)) by (intros; ring).
  rewrite sumZ_minus, sumZ_plus, !sumZ_scale. unfold qe at 1. rewrite (sumZ_plus 0 (nsp - 1) (fun n => q (5 + n)%Z) (fun n => e * d (5 + n)%Z)), sumZ_scale. unfold y, fracs, q. ring.
Qed.
Lemma gas_affine e : (1 <= nsp)%Z -> gasConstant th (fun n => qe e (5 + n)%Z) = gasConstant th y + e * R1.
Proof.
  intros H. unfold gasConstant, R1. fold nsp. rewrite (sumZ_ext 0 nsp _ (fun n => withLast nsp (fun n => qe e (5 + n)%Z) n * (1 / MW th n))) by (intros; unfold Rdiv; ring).
  rewrite affine_sum by auto. rewrite (sumZ_ext 0 nsp (fun n => withLast nsp y n / MW th n) (fun n => withLast nsp y n * (1 / MW th n))) by (intros; unfold Rdiv; ring). ring.
Qed.
Lemma lin_deriv a b : derivable_pt_lim (fun e => a + e * b) 0 b.
Proof.
  apply (derivable_pt_lim_ext (plus_fct (fct_cte a) (mult_real_fct b (fun x => x)))); [intros; unfold plus_fct, mult_real_fct, fct_cte; ring|]. replace b with (0 + b * 1) at 2 by ring.
  apply derivable_pt_lim_plus; [apply derivable_pt_lim_const|]. apply (derivable_pt_lim_scal (fun x => x)). apply derivable_pt_lim_id.
Qed.
Let Rg := gasConstant th y.
Let p := q 0%Z. Let T := q 4%Z.
Let rho := density th q.
Lemma rho_deriv : derivable_pt_lim (fun e => density th (qe e)) 0 (rho * (d 0%Z / p - d 4%Z / T - R1 / Rg)).
Proof.
  destruct HI as (G & V & Hp & HT & _). pose proof (gas_pos th _ G V) as RP. fold y Rg in RP. fold q in Hp, HT. fold p in Hp. fold T in HT. destruct G as (G1 & _).
  apply (derivable_pt_lim_ext (div_fct (fun e => p + e * d 0%Z) (mult_fct (fun e => Rg + e * R1) (fun e => T + e * d 4%Z)))).
  - intros e. unfold div_fct, mult_fct. unfold density. rewrite gas_affine by auto. reflexivity.
  - replace (rho * (d 0%Z / p - d 4%Z / T - R1 / Rg)) with
      ((d 0%Z * ((Rg + 0 * R1) * (T + 0 * d 4%Z)) - (R1 * (T + 0 * d 4%Z) + (Rg + 0 * R1) * d 4%Z) * (p + 0 * d 0%Z)) / Rsqr ((Rg + 0 * R1) * (T + 0 * d 4%Z))).
    + apply (derivable_pt_lim_div (fun e => p + e * d 0%Z) (mult_fct (fun e => Rg + e * R1) (fun e => T + e * d 4%Z))).
      * apply lin_deriv.
      * exact (derivable_pt_lim_mult (fun e => Rg + e * R1) (fun e => T + e * d 4%Z) 0 R1 (d 4%Z) (lin_deriv _ _) (lin_deriv _ _)).
      * unfold mult_fct. replace ((Rg + 0 * R1) * (T + 0 * d 4%Z)) with (Rg * T) by ring. apply Rmult_integral_contrapositive. split; lra.
    + unfold rho, density, Rsqr. change (gasConstant th (fun n => q (5 + n)%Z)) with Rg. change (q 0%Z) with p. change (q 4%Z) with T. field. lra.
Qed.
Let cp := sumZ 0 nsp (fun n => withLast nsp y n * cps n).
Let H1 := sumZ 0 (nsp - 1) (fun n => d (5 + n)%Z * (hs n T - hs (nsp - 1)%Z T)).
Lemma h_deriv : derivable_pt_lim (fun e => enthalpyOf th hs (qe e)) 0 (cp * d 4%Z + H1).
Proof.
  destruct HI as (G & V & Hp & HT & _ & _ & _ & _ & HD & _). destruct G as (G1 & _).
  assert (DW: forall n, derivable_pt_lim (fun e => withLast nsp (fun n => qe e (5 + n)%Z) n) 0 (if (n =? nsp - 1)%Z then - sumZ 0 (nsp - 1) (fun n => d (5 + n)%Z) else d (5 + n)%Z)).
  { intros n. unfold withLast. destruct (Z.eqb_spec n (nsp - 1)).
    - apply (derivable_pt_lim_ext (fun e => (1 - sumZ 0 (nsp - 1) (fun n => q (5 + n)%Z)) + e * - sumZ 0 (nsp - 1) (fun n => d (5 + n)%Z))).
      + intros e0. unfold qe. rewrite (sumZ_plus 0 (nsp - 1) (fun n => q (5 + n)%Z) (fun n => e0 * d (5 + n)%Z)), sumZ_scale. ring.
      + apply lin_deriv.
    - apply lin_deriv. }
  assert (DH: forall n, (0 <= n < nsp)%Z -> derivable_pt_lim (fun e => hs n (qe e 4%Z)) 0 (cps n * d 4%Z)).
  { intros n Hn. apply (derivable_pt_lim_comp (fun e => q 4%Z + e * d 4%Z) (hs n) 0 (d 4%Z) (cps n)); [apply lin_deriv|]. rewrite Rmult_0_l, Rplus_0_r. now apply HD. }
  unfold enthalpyOf. fold nsp.
  replace (cp * d 4%Z + H1) with (sumZ 0 nsp (fun n => (if (n =? nsp - 1)%Z then - sumZ 0 (nsp - 1) (fun n => d (5 + n)%Z) else d (5 + n)%Z) * hs n T + withLast nsp y n * (cps n * d 4%Z))).
  - unfold sumZ at 1 2. apply (sum_deriv (zrange 0 nsp) (fun n e => withLast nsp (fun n => qe e (5 + n)%Z) n * hs n (qe e 4%Z))).
    intros n Hn. apply zrange_in in Hn. 
    pose proof (derivable_pt_lim_mult (fun e => withLast nsp (fun n => qe e (5 + n)%Z) n) (fun e => hs n (qe e 4%Z)) 0 _ _ (DW n) (DH n Hn)) as D.
    cbv beta in D. assert (E0: forall m, qe 0 m = q m) by (intros; unfold qe; ring).
    assert (E1: withLast nsp (fun n => qe 0 (5 + n)%Z) n = withLast nsp y n). { f_equal. extensionality m. apply E0. }
    rewrite E1, E0 in D. exact D.
  - rewrite sumZ_plus. rewrite (sumZ_ext 0 nsp (fun n => withLast nsp y n * (cps n * d 4%Z)) (fun n => d 4%Z * (withLast nsp y n * cps n))) by (intros; ring).
    rewrite sumZ_scale. fold cp. rewrite (sumZ_last nsp) by lia. rewrite Z.eqb_refl.
    rewrite (sumZ_ext 0 (nsp - 1) (fun i => (if (i =? nsp - 1)%Z then _ else _) * _) (fun n => d (5 + n)%Z * hs n T)) by (intros n Hn; destruct (Z.eqb_spec n (nsp - 1)); [lia|reflexivity]).
    unfold H1. rewrite (sumZ_ext 0 (nsp - 1) (fun n => d (5 + n)%Z * (hs n T - hs (nsp - 1)%Z T)) (fun n => d (5 + n)%Z * hs n T - hs (nsp - 1)%Z T * d (5 + n)%Z)) by (intros; ring).
    rewrite sumZ_minus, sumZ_scale. ring.
Qed.
End Jacobian.

Lemma drho_dual th c Th d : goodGas th -> validFracs (ns th) (fracs c) ->
  drho (dualData th c) Th d = Th * d 0%Z - cQ c 0%Z / cq c 4%Z * d 4%Z - cQ c 0%Z * (R1 th d / gasConstant th (fracs c)).
Proof.
  intros G V. pose proof (gas_pos th _ G V) as RP. unfold drho. change (dc_rho (dualData th c)) with (cQ c 0%Z). change (dc_T (dualData th c)) with (cq c 4%Z). change (dc_ns (dualData th c)) with (ns th).
  rewrite (sumZ_ext 0 (ns th - 1) _ (fun n => - cQ c 0%Z * (Ru th / gasConstant th (fracs c)) * (d (5 + n)%Z * (1 / MW th n - 1 / MW th (ns th - 1)%Z)))).
  - rewrite sumZ_scale. unfold R1. set (S := sumZ _ _ _). unfold Rdiv. ring.
  - intros n Hn. rewrite dual_rhoY by auto. ring.
Qed.
Lemma deriv_eq f x l l' : derivable_pt_lim f x l -> l = l' -> derivable_pt_lim f x l'.
Proof. intros H <-. exact H. Qed.
(** C91.  The physical-time matrix assembled for a cell holding an ideal-gas state is the exact derivative of the conserved variables with
    respect to the primitive ones: along every direction d, for every equation. *)
Theorem C91_jacobian : forall th hs cps c, idealCell th hs cps c -> forall d l, (0 <= l < 5 + ns th - 1)%Z ->
  derivable_pt_lim (fun e => conserved th hs (fun m => cq c m + e * d m) l) 0
    (mulMV (5 + ns th - 1) (gammaMat (dualData th c) (cQ c 0%Z / cq c 0%Z)) d l).
Proof.
  intros th hs cps c HI d l Hl. pose proof (rho_deriv th hs cps c HI d) as DR. pose proof (h_deriv th hs cps c HI d) as DH.
  destruct HI as (G & V & Hp & HT & HQ & Hcp & Hh & Hhs & HD & Hgt). pose proof (gas_pos th _ G V) as RP. assert (G1 := proj1 G).
  set (rho := cQ c 0%Z) in *. assert (RH: density th (cq c) = rho) by (symmetry; exact HQ).
  assert (R0: 0 < rho). { rewrite HQ. unfold density. apply Rdiv_lt_0_compat; auto. apply Rmult_lt_0_compat; auto. }
  rewrite RH in DR. set (D := dualData th c) in *. set (Th := rho / cq c 0%Z).
  assert (ED: rho * (d 0%Z / cq c 0%Z - d 4%Z / cq c 4%Z - R1 th d / gasConstant th (fracs c)) = drho D Th d).
  { unfold D. rewrite drho_dual by auto. fold rho. unfold Th. field. lra. }
  rewrite ED in DR. assert (Hns: (1 <= dc_ns D)%Z) by exact G1. change (5 + ns th - 1)%Z with (5 + dc_ns D - 1)%Z.
  assert (Q0: forall m, cq c m + 0 * d m = cq c m) by (intros; ring).
  assert (D0: density th (fun m => cq c m + 0 * d m) = rho). { rewrite <- RH. f_equal. extensionality m. apply Q0. }
  assert (PR: forall m, derivable_pt_lim (fun e => density th (fun m => cq c m + e * d m) * (cq c m + e * d m)) 0 (drho D Th d * cq c m + rho * d m)).
  { intros m. eapply deriv_eq; [apply (derivable_pt_lim_mult (fun e => density th (fun m => cq c m + e * d m)) (fun e => cq c m + e * d m) 0 _ _ DR (lin_deriv _ _))|]. cbv beta. rewrite D0, Q0. reflexivity. }
  unfold conserved. assert (l = 0 \/ l = 1 \/ l = 2 \/ l = 3 \/ l = 4 \/ exists n, l = 5 + n /\ 0 <= n < ns th - 1)%Z as [-> | [-> | [-> | [-> | [-> | (n & -> & Hn)]]]]].
  { destruct (Z.ltb_spec l 5); [lia|]. do 5 right. exists (l - 5)%Z. lia. }
  - cbn [Z.eqb]. rewrite row0 by auto. exact DR.
  - cbn [Z.eqb Pos.eqb]. rewrite row1 by auto. exact (PR 1%Z).
  - cbn [Z.eqb Pos.eqb]. rewrite row2 by auto. exact (PR 2%Z).
  - cbn [Z.eqb Pos.eqb]. rewrite row3 by auto. exact (PR 3%Z).
  - cbn [Z.eqb Pos.eqb]. rewrite row4 by auto.
    set (K := fun e => ((cq c 1%Z + e * d 1%Z) * (cq c 1%Z + e * d 1%Z) + (cq c 2%Z + e * d 2%Z) * (cq c 2%Z + e * d 2%Z) + (cq c 3%Z + e * d 3%Z) * (cq c 3%Z + e * d 3%Z)) / 2).
    assert (SQ: forall m, derivable_pt_lim (fun e => (cq c m + e * d m) * (cq c m + e * d m)) 0 (2 * cq c m * d m)).
    { intros m. eapply deriv_eq; [apply (derivable_pt_lim_mult (fun e => cq c m + e * d m) (fun e => cq c m + e * d m) 0 _ _ (lin_deriv _ _) (lin_deriv _ _))|]. cbv beta. rewrite Q0. ring. }
    assert (DK: derivable_pt_lim K 0 (cq c 1%Z * d 1%Z + cq c 2%Z * d 2%Z + cq c 3%Z * d 3%Z)).
    { apply (derivable_pt_lim_ext (mult_real_fct (/2) (plus_fct (plus_fct (fun e => (cq c 1%Z + e * d 1%Z) * (cq c 1%Z + e * d 1%Z)) (fun e => (cq c 2%Z + e * d 2%Z) * (cq c 2%Z + e * d 2%Z))) (fun e => (cq c 3%Z + e * d 3%Z) * (cq c 3%Z + e * d 3%Z))))).
      - intros e. unfold mult_real_fct, plus_fct, K. field.
      - eapply deriv_eq; [apply derivable_pt_lim_scal, derivable_pt_lim_plus; [apply derivable_pt_lim_plus|]; apply SQ|]. field. }
    pose proof (derivable_pt_lim_plus _ _ _ _ _ DH DK) as DHK. pose proof (derivable_pt_lim_mult _ _ _ _ _ DR DHK) as DM.
    pose proof (derivable_pt_lim_minus _ _ _ _ _ DM (lin_deriv (cq c 0%Z) (d 0%Z))) as DF.
    apply (derivable_pt_lim_ext _ _ _ _ (fun e => eq_refl) ) in DF. eapply deriv_eq; [exact DF|].
    unfold plus_fct. rewrite D0.
    assert (EK: K 0 = (cq c 1%Z * cq c 1%Z + cq c 2%Z * cq c 2%Z + cq c 3%Z * cq c 3%Z) / 2) by (unfold K; rewrite !Q0; reflexivity). rewrite EK.
    assert (EH: enthalpyOf th hs (fun m => cq c m + 0 * d m) = enthalpyOf th hs (cq c)) by (f_equal; extensionality m; apply Q0). rewrite EH.
    change (dc_rho D) with rho. change (dc_T D) with (cq c 4%Z). change (dc_u D) with (cq c 1%Z). change (dc_v D) with (cq c 2%Z). change (dc_w D) with (cq c 3%Z). change (dc_cp D) with (ch c 1%Z).
    change (dc_H D) with (ch c 2%Z / rho + 5/10 * (cq c 1%Z ^ 2 + cq c 2%Z ^ 2 + cq c 3%Z ^ 2)). change (dc_ns D) with (ns th). rewrite Hh. 
    change (sumZ 0 (ns th) (fun n => withLast (ns th) (fracs c) n * cps n)) with (sumZ 0 (ns th) (fun n => withLast (ns th) (fracs c) n * cps n)). rewrite <- Hcp.
    rewrite (sumZ_ext 0 (ns th - 1) (fun n => (dc_h D (5 + n)%Z - _) * _) (fun n => d (5 + n)%Z * (hs n (cq c 4%Z) - hs (ns th - 1)%Z (cq c 4%Z)))).
    + set (S := sumZ _ _ _). set (X := drho D Th d). field. lra.
    + intros n Hn. change (dc_h D) with (ch c). replace (5 + ns th - 1)%Z with (5 + (ns th - 1))%Z by lia. rewrite !Hhs by lia. ring.
  - replace (5 + n =? 0)%Z with false by (symmetry; apply Z.eqb_neq; lia). replace (5 + n =? 4)%Z with false by (symmetry; apply Z.eqb_neq; lia).
    rewrite rowS by auto. unfold D at 2. rewrite dualY by lia. unfold withLast. destruct (Z.eqb_spec n (ns th - 1)); [lia|]. exact (PR (5 + n)%Z).
Qed.
Lemma mulMV_lin ne A B a b x l : mulMV ne (fun l m => a * A l m + b * B l m) x l = a * mulMV ne A x l + b * mulMV ne B x l.
Proof. unfold mulMV. rewrite <- !sumZ_scale, <- sumZ_plus. apply sumZ_ext. intros; ring. Qed.
(** the matrix solved at every pseudo-time step is nonsingular for every ideal-gas cell, every positive reference velocity and every ratio of
    pseudo- to physical time step *)
Theorem C91_nonsingular : forall th hs cps c Ur dtau dt, idealCell th hs cps c -> 0 < Ur -> 0 <= dtau -> 0 < dt ->
  nonsingular (5 + ns th - 1) (GdQ (dualData th c) Ur dtau dt).
Proof.
  intros th hs cps c Ur dtau dt HI HU Hdtau Hdt x HX. destruct HI as (G & V & Hp & HT & HQ & Hcp & Hh & Hhs & HD & Hgt). pose proof (gas_pos th _ G V) as RP. assert (G1 := proj1 G).
  set (rho := cQ c 0%Z) in *. assert (R0: 0 < rho). { rewrite HQ. unfold density. apply Rdiv_lt_0_compat; auto. apply Rmult_lt_0_compat; auto. }
  set (D := dualData th c) in *. set (k := 3 / 2 * dtau / dt). assert (K0: 0 <= k). { unfold k. apply Rmult_le_pos; [lra|]. left. now apply Rinv_0_lt_compat. }
  set (T0 := 1 / Ur ^ 2 - (- rho / cq c 4%Z) / (rho * ch c 1%Z)). set (T1 := rho / cq c 0%Z).
  assert (HX': forall i, (0 <= i < 5 + ns th - 1)%Z -> mulMV (5 + ns th - 1) (gammaMat D T0) x i + k * mulMV (5 + ns th - 1) (gammaMat D T1) x i = 0).
  { intros i Hi. rewrite <- (HX i Hi). unfold GdQ. fold k. rewrite mulMV_lin. change (dc_rho D) with rho. change (dc_T D) with (cq c 4%Z). change (dc_cp D) with (ch c 1%Z). change (dc_p D) with (cq c 0%Z). fold T0 T1. ring. }
  assert (Hns: (1 <= dc_ns D)%Z) by exact G1. change (5 + ns th - 1)%Z with (5 + dc_ns D - 1)%Z in HX'. 
  pose proof (HX' 0%Z ltac:(lia)) as E0. pose proof (HX' 1%Z ltac:(lia)) as E1. pose proof (HX' 2%Z ltac:(lia)) as E2. pose proof (HX' 3%Z ltac:(lia)) as E3. pose proof (HX' 4%Z ltac:(lia)) as E4.
  assert (ES: forall n, (0 <= n < dc_ns D - 1)%Z -> x (5 + n)%Z = 0).
  { intros n Hn. pose proof (HX' (5 + n)%Z ltac:(lia)) as E. rewrite !rowS in E by auto. rewrite !row0 in E0 by auto. change (dc_rho D) with rho in E.
    assert ((1 + k) * rho * x (5 + n)%Z = 0) as Z. { transitivity ((drho D T0 x + k * drho D T1 x) * dc_Y D n + (1 + k) * rho * x (5 + n)%Z); [rewrite E0; ring|]. rewrite <- E. ring. }
    apply Rmult_integral in Z as [Z|Z]; auto. exfalso. assert (0 < (1 + k) * rho) by (apply Rmult_lt_0_compat; lra). lra. }
  rewrite !row0 in E0 by auto. rewrite !row1 in E1 by auto. rewrite !row2 in E2 by auto. rewrite !row3 in E3 by auto. rewrite !row4 in E4 by auto.
  change (dc_rho D) with rho in *. change (dc_T D) with (cq c 4%Z) in *. change (dc_cp D) with (ch c 1%Z) in *.
  rewrite (sumZ_zero 0 (dc_ns D - 1)) in E4 by (intros n Hn; rewrite ES by auto; ring).
  assert (V0: forall i w, drho D T0 x * w + rho * x i + k * (drho D T1 x * w + rho * x i) = 0 -> x i = 0).
  { intros i w E. assert ((1 + k) * rho * x i = 0) as Z. { transitivity ((drho D T0 x + k * drho D T1 x) * w + (1 + k) * rho * x i); [rewrite E0; ring|]. rewrite <- E. ring. }
    apply Rmult_integral in Z as [Z|Z]; auto. exfalso. assert (0 < (1 + k) * rho) by (apply Rmult_lt_0_compat; lra). lra. }
  apply V0 in E1, E2, E3. rewrite E1, E2, E3 in E4.
  assert (X0: x 0%Z = rho * ch c 1%Z * x 4%Z).
  { replace (cq c 4%Z * (- rho / cq c 4%Z) / rho * x 0%Z) with (- x 0%Z) in E4 by (field; lra).
    assert ((1 + k) * (rho * ch c 1%Z * x 4%Z - x 0%Z) = 0) as Z. { transitivity ((drho D T0 x + k * drho D T1 x) * dc_H D + (1 + k) * (rho * ch c 1%Z * x 4%Z - x 0%Z)); [rewrite E0; ring|]. rewrite <- E4. ring. }
    apply Rmult_integral in Z as [Z|Z]; lra. }
  assert (X4: x 4%Z = 0).
  { unfold D in E0. rewrite !drho_dual in E0 by auto. fold rho in E0. assert (RZ: R1 th x = 0). { unfold R1. rewrite sumZ_zero; [ring|]. intros n Hn. rewrite ES by exact Hn. ring. }
    rewrite RZ, X0 in E0. assert (CP: 0 < ch c 1%Z) by lra.
    assert (RR: rho = cq c 0%Z / (gasConstant th (fracs c) * cq c 4%Z)) by exact HQ.
    assert (T1E: T1 = 1 / (gasConstant th (fracs c) * cq c 4%Z)). { unfold T1. rewrite RR. field. lra. }
    rewrite T1E in E0. unfold T0 in E0. set (cp := ch c 1%Z) in *. set (Tc := cq c 4%Z) in *. set (Rg := gasConstant th (fracs c)) in *.
    assert (Z: rho * (cp / Ur ^ 2 + k * ((cp - Rg) / (Rg * Tc))) * x 4%Z = 0). { rewrite <- E0. field. lra. }
    apply Rmult_integral in Z as [Z|Z]; auto. exfalso.
    assert (0 < cp / Ur ^ 2). { apply Rdiv_lt_0_compat; auto. apply pow_lt; auto. }
    assert (0 <= k * ((cp - Rg) / (Rg * Tc))). { apply Rmult_le_pos; auto. apply Rmult_le_pos; [lra|]. left. apply Rinv_0_lt_compat. apply Rmult_lt_0_compat; auto. }
    assert (0 < rho * (cp / Ur ^ 2 + k * ((cp - Rg) / (Rg * Tc)))) by (apply Rmult_lt_0_compat; lra). lra. }
  intros j Hj. assert (j = 0 \/ j = 1 \/ j = 2 \/ j = 3 \/ j = 4 \/ 5 <= j)%Z as [-> | [-> | [-> | [-> | [-> | H5]]]]] by lia; auto.
  - rewrite X0, X4. ring.
  - replace j with (5 + (j - 5))%Z by lia. apply ES. change (dc_ns D) with (ns th). lia.
Qed.
Lemma refVelocity_pos U c lim : 0 < c -> match lim with None => True | Some l => 0 < l end -> 0 < refVelocity U c lim.
Proof.
  intros Hc Hl. unfold refVelocity. set (Ur := if Rlt_dec U _ then _ else _). assert (0 < Ur). { unfold Ur. repeat destruct Rlt_dec; lra. }
  destruct lim; auto. unfold Rmin. destruct Rle_dec; auto.
Qed.
(** ... so the update written by the kernel is the unique solution of the preconditioned system *)
Theorem C91_update : forall th hs cps c lim dtau dt dQ, idealCell th hs cps c -> 0 < ch c 3%Z -> match lim with None => True | Some l => 0 < l end -> 0 <= dtau -> 0 < dt ->
  let U := sqrt (cq c 1%Z ^ 2 + cq c 2%Z ^ 2 + cq c 3%Z ^ 2) in
  let A := GdQ (dualData th c) (refVelocity U (ch c 3%Z) lim) dtau dt in
  let x := invertDQ1 th c lim dtau dt dQ in
  (forall i, (0 <= i < 5 + ns th - 1)%Z -> mulMV (5 + ns th - 1) A x i = dQ i) /\
  (forall y, (forall i, (0 <= i < 5 + ns th - 1)%Z -> mulMV (5 + ns th - 1) A y i = dQ i) -> forall j, (0 <= j < 5 + ns th - 1)%Z -> y j = x j).
Proof.
  intros th hs cps c lim dtau dt dQ HI Hc Hl Htau Hdt. cbv zeta. unfold invertDQ1. change (dc_u (dualData th c)) with (cq c 1%Z). change (dc_v (dualData th c)) with (cq c 2%Z). change (dc_w (dualData th c)) with (cq c 3%Z).
  rewrite Rabs_right by (apply Rle_ge, sqrt_pos). apply C48_solves.
  - destruct HI as ((G1 & _) & _). lia.
  - eapply C91_nonsingular; eauto. now apply refVelocity_pos.
Qed.

(** The hypothesis is met by every cell the equations of state produce, and the conserved variables they store are the ones differentiated:
    calorically perfect gas ... *)
Theorem C91_cpg : forall th c, goodGas th -> goodCp th -> validFracs (ns th) (fracs c) -> 0 < c_p c -> 0 < cq c 4%Z ->
  let r := cpgPrims th c in let hs := fun n T => T * cp0 th n in
  idealCell th hs (cp0 th) r /\ 0 < ch r 3%Z /\ forall l, (0 <= l < 5 + ns th - 1)%Z -> cQ r l = conserved th hs (cq r) l.
Proof.
  intros th c G C V Hp HT. cbv zeta. pose proof (cpgPrims_Q th G C c V Hp HT) as A. cbv zeta in A. set (r := cpgPrims th c) in *. destruct A as (Aq & A0 & A1 & A2 & A3 & A4 & A5 & H0 & H1 & H2 & H3 & H4 & H5).
  pose proof (gas_pos th _ G V) as RP. pose proof (gas_lt_cp th _ G C V) as RC. assert (G1 := proj1 G).
  assert (EQ: cq r = cq c) by (extensionality l; apply Aq). assert (EF: fracs r = fracs c) by (unfold fracs; rewrite EQ; reflexivity).
  assert (ED: density th (cq r) = c_p c / (gasConstant th (fracs c) * cq c 4%Z)) by (rewrite EQ; reflexivity).
  assert (EH: enthalpyOf th (fun n T => T * cp0 th n) (cq r) = heatCapacity th (fracs c) * cq c 4%Z).
  { rewrite EQ. unfold enthalpyOf, heatCapacity. rewrite Rmult_comm, <- sumZ_scale. apply sumZ_ext. intros n Hn. unfold fracs. ring. }
  assert (R0: 0 < c_p c / (gasConstant th (fracs c) * cq c 4%Z)) by (apply Rdiv_lt_0_compat; auto; apply Rmult_lt_0_compat; auto).
  split; [|split].
  - unfold idealCell. rewrite EF, !EQ. split; [auto|]. split; [auto|]. split; [exact Hp|]. split; [auto|]. rewrite A0, <- ED, EQ. split; [reflexivity|]. rewrite H1, H2.
    split; [reflexivity|]. split; [rewrite <- EQ, EH, EQ in *; rewrite <- EQ in ED at 1; rewrite EQ in ED; rewrite ED; reflexivity|]. split; [exact H5|]. split; [|exact RC].
    intros n Hn. apply (derivable_pt_lim_ext (mult_real_fct (cp0 th n) (fun x => x))); [intros; unfold mult_real_fct; ring|]. replace (cp0 th n) with (cp0 th n * 1) at 2 by ring. apply derivable_pt_lim_scal, derivable_pt_lim_id.
  - rewrite H3. apply sqrt_lt_R0. apply Rmult_lt_0_compat; auto. apply Rmult_lt_0_compat; auto. apply Rdiv_lt_0_compat; lra.
  - intros l Hl. unfold conserved. rewrite ED, EH. rewrite EQ. apply (index_cases l (ns th - 1) (fun l => cQ r l = if (l =? 0)%Z then _ else if (l =? 4)%Z then _ else _ * cq c l)); [lia| | | | | |]; cbn [Z.eqb Pos.eqb]; auto.
    + rewrite A4. unfold kinetic, dot3, vel, vx, vy, vz, c_u, c_v, c_w, c_p; cbn [fst snd]. unfold c_p in R0. field. lra.
    + intros n Hn. replace (5 + n =? 0)%Z with false by (symmetry; apply Z.eqb_neq; lia). replace (5 + n =? 4)%Z with false by (symmetry; apply Z.eqb_neq; lia). rewrite A5 by auto. reflexivity.
Qed.
(** ... and thermally perfect gas, away from the break temperatures of the polynomials and while cp > R. *)
Theorem C91_tpg : forall th c, goodGas th -> validFracs (ns th) (fracs c) -> 0 < c_p c -> 0 < cq c 4%Z -> offBreak th (cq c 4%Z) ->
  gasConstant th (fracs c) < mixtureCp th (fracs c) (cq c 4%Z) ->
  let r := tpgPrims th c in
  idealCell th (speciesH th) (fun n => speciesCp th n (cq c 4%Z)) r /\ 0 < ch r 3%Z /\ forall l, (0 <= l < 5 + ns th - 1)%Z -> cQ r l = conserved th (speciesH th) (cq r) l.
Proof.
  intros th c HG V Hp HT0 HB HC. cbv zeta. set (c' := tpgPrims th c). set (y := fracs c). set (T := cq c 4%Z) in *. set (R := gasConstant th y). set (rho := c_p c / (R * T)). fold y R in HC.
  assert (R0: 0 < R) by (now apply gas_pos).
  assert (Rr: 0 < rho) by (unfold rho; apply Rdiv_lt_0_compat; [auto|nra]).
  assert (Pid: forall l, clipPrims (ns th) (cq c) l = cq c l) by (intros; now apply clipPrims_id).
  set (Yp := primsY (ns th) (cq c)).
  assert (EY: forall n, (0 <= n < ns th)%Z -> Yp n = withLast (ns th) y n).
  { intros n Hn. destruct (primsY_valid (ns th) (cq c)) as (_ & W). unfold Yp. rewrite W by auto. apply withLast_ext; auto. intros. now apply primsY_id. }
  assert (ER: mixR th Yp = R) by (now apply mixR_gas).
  assert (EH: tpgH th Yp T = mixtureH th y T) by (apply tpgH_spec; auto; lra).
  assert (EC: tpgCp th Yp T = mixtureCp th y T) by (now apply tpgCp_spec).
  assert (PR: c_p c / rho = R * T) by (unfold rho; field; repeat split; lra).
  set (h := mixtureH th y T) in *. set (cp := mixtureCp th y T) in *.
  assert (C1: c' = mkCell (storeQ (ns th) (cQ c) rho (c_u c) (c_v c) (c_w c) (rho * (h - R * T) + halfSq (c_u c) (c_v c) (c_w c) * rho) Yp)
       (clipPrims (ns th) (cq c)) (storeqh (ns th) (ch c) (cp / (cp - R)) cp (rho * h) (sqrt (cp / (cp - R) * R * T)) (rho * (h - R * T)) (fun n => nasaH th n T))).
  { unfold c', tpgPrims. cbv zeta. fold Yp. rewrite !Pid. fold (c_p c) (c_u c) (c_v c) (c_w c) T. rewrite ER, EH, EC. fold rho. rewrite PR. reflexivity. }
  assert (EQ: cq c' = cq c) by (rewrite C1; cbn [cq]; extensionality l; apply Pid). assert (EF: fracs c' = y) by (unfold fracs; rewrite EQ; reflexivity).
  assert (ED: density th (cq c) = rho) by reflexivity. assert (EE: enthalpyOf th (speciesH th) (cq c) = h) by reflexivity.
  split; [|split].
  - unfold idealCell. rewrite EF, EQ. split; [auto|]. split; [exact V|]. split; [exact Hp|]. split; [exact HT0|]. rewrite ED, EE. rewrite C1. cbn [cQ ch]. split; [reflexivity|]. split; [reflexivity|]. split; [reflexivity|].
    split; [|split; [|exact HC]].
    + intros n Hn. unfold storeqh. replace (5 + n =? 0)%Z with false by (symmetry; apply Z.eqb_neq; lia). replace (5 + n =? 1)%Z with false by (symmetry; apply Z.eqb_neq; lia).
      replace (5 + n =? 2)%Z with false by (symmetry; apply Z.eqb_neq; lia). replace (5 + n =? 3)%Z with false by (symmetry; apply Z.eqb_neq; lia). replace (5 + n =? 4)%Z with false by (symmetry; apply Z.eqb_neq; lia).
      replace ((5 <=? 5 + n) && (5 + n <? 5 + ns th))%Z%bool with true by (symmetry; apply andb_true_intro; split; [apply Z.leb_le|apply Z.ltb_lt]; lia). replace (5 + n - 5)%Z with n by lia. fold T. apply nasaH_spec; auto. lra.
    + intros n Hn. apply speciesH_deriv. now apply HB.
  - rewrite C1. cbn [ch]. change (0 < sqrt (cp / (cp - R) * R * T)). apply sqrt_lt_R0. apply Rmult_lt_0_compat; auto. apply Rmult_lt_0_compat; auto. apply Rdiv_lt_0_compat; lra.
  - intros l Hl. unfold conserved. rewrite EQ, ED, EE. rewrite C1. cbn [cQ]. apply (index_cases l (ns th - 1) (fun l => storeQ _ _ _ _ _ _ _ _ l = if (l =? 0)%Z then _ else if (l =? 4)%Z then _ else _ * cq c l)); [lia| | | | | |]; cbn [Z.eqb Pos.eqb]; auto.
    + unfold storeQ. cbn [Z.eqb Pos.eqb]. unfold halfSq, c_u, c_v, c_w. replace (cq c 0%Z) with (rho * (R * T)); [field|]. unfold rho, c_p. field. lra.
    + intros n Hn. rewrite storeQ_species by auto. replace (5 + n =? 0)%Z with false by (symmetry; apply Z.eqb_neq; lia). replace (5 + n =? 4)%Z with false by (symmetry; apply Z.eqb_neq; lia).
      rewrite EY by lia. unfold withLast. destruct (Z.eqb_spec n (ns th - 1)); [lia|]. unfold y, fracs. ring.
Qed.
Example C91_nonvacuous : idealCell exTh (fun n T => T * cp0 exTh n) (cp0 exTh) (cpgPrims exTh exPrim) /\ 0 < ch (cpgPrims exTh exPrim) 3%Z.
Proof. destruct C37_nonvacuous as (A & B & V & P & T). destruct (C91_cpg exTh exPrim A B V P T) as (H & H0 & _). auto. Qed.
Print Assumptions C48_solves.
Print Assumptions C48_factors.
Print Assumptions C91_jacobian.
Print Assumptions C91_nonsingular.
Print Assumptions C91_update.
Print Assumptions C91_cpg.
Print Assumptions C91_tpg.
