(** C150: accuracy of the fourth-order scheme. *)
From Coq Require Import Reals ZArith List Bool Lra Lia Psatz.
From Verif Require Import L_Vec M_Halo M_Grid M_Metrics S_Metrics M_Flux M_FluxKernels S_Order4.
Import ListNotations.
Open Scope R_scope.

Lemma keepSum_is f : keepSum f = 2 * (2/3 * f 0%Z (-1)%Z - 1/12 * (f 0%Z (-2)%Z + f 1%Z (-1)%Z)).
Proof.
  unfold keepSum. change (zrange 1 3) with [1; 2]%Z. cbn [fold_left]. change (zrange 0 1) with [0]%Z. change (zrange 0 2) with [0; 1]%Z. cbn [fold_left]. unfold aq. cbn [Z.eqb Pos.eqb].
  change (0 - 1)%Z with (-1)%Z. change (0 - 2)%Z with (-2)%Z. change (1 - 2)%Z with (-1)%Z. field.
Qed.
Ltac flat := unfold divergence, fourthOrderKEEP, acrossX, cellOf, c_rho, c_u, c_v, c_w, c_p, c_re; cbv zeta; cbn [gs]; unfold vx, vy, vz; cbn [fst snd comp Z.eqb Pos.eqb cQ cq ch Z.leb Z.compare Pos.compare Pos.compare_cont];
  rewrite ?keepSum_is; cbn [cQ cq ch Z.eqb Pos.eqb Z.leb Z.compare Pos.compare Pos.compare_cont].
(** gas at rest: a pressure that is a quartic in x gives its exact gradient *)
Theorem C150_pressure : forall a0 a1 a2 a3 a4 rho re y h x, h <> 0 ->
  divergence fourthOrderKEEP (mkFlow rho (constant 0) (quartic4 a0 a1 a2 a3 a4) re y) h x 1%Z = slope4 a1 a2 a3 a4 x.
Proof. intros. flat. cbn [w_rho w_u w_p w_re w_y]. unfold constant, quartic4, slope4. field. auto. Qed.
(** constant velocity: a density that is a quartic in x gives the exact divergence of the mass and momentum fluxes; with constant density, so does a composition for its flux *)
Theorem C150_advection : forall a0 a1 a2 a3 a4 u p re h x, h <> 0 ->
  let f := mkFlow (quartic4 a0 a1 a2 a3 a4) (constant u) (constant p) re (constant 0) in
  divergence fourthOrderKEEP f h x 0%Z = u * slope4 a1 a2 a3 a4 x /\ divergence fourthOrderKEEP f h x 1%Z = u * u * slope4 a1 a2 a3 a4 x.
Proof. intros. unfold f. split; flat; cbn [w_rho w_u w_p w_re w_y]; unfold constant, quartic4, slope4; field; auto. Qed.
Theorem C150_composition : forall a0 a1 a2 a3 a4 rho u p re h x, h <> 0 ->
  divergence fourthOrderKEEP (mkFlow (constant rho) (constant u) (constant p) re (quartic4 a0 a1 a2 a3 a4)) h x 5%Z = rho * u * slope4 a1 a2 a3 a4 x.
Proof. intros. flat. cbn [w_rho w_u w_p w_re w_y]. unfold constant, quartic4, slope4. field. auto. Qed.
(** and with density and composition both quadratic in x *)
Theorem C150_species : forall a0 a1 a2 b0 b1 b2 u p re h x, h <> 0 ->
  let rho := quartic4 a0 a1 a2 0 0 in let y := quartic4 b0 b1 b2 0 0 in
  divergence fourthOrderKEEP (mkFlow rho (constant u) (constant p) re y) h x 5%Z = u * (slope4 a1 a2 0 0 x * y x + rho x * slope4 b1 b2 0 0 x).
Proof. intros. unfold rho, y. flat. cbn [w_rho w_u w_p w_re w_y]. unfold constant, quartic4, slope4. field. auto. Qed.
(** when density and velocity both vary, the mass flux carries an error of second order: h^2/12 (rho' u')' *)
Theorem C150_mass_error : forall a0 a1 a2 b0 b1 b2 p re y h x, h <> 0 ->
  let rho := quartic4 a0 a1 a2 0 0 in let u := quartic4 b0 b1 b2 0 0 in
  divergence fourthOrderKEEP (mkFlow rho u p re y) h x 0%Z =
    (slope4 a1 a2 0 0 x * u x + rho x * slope4 b1 b2 0 0 x) + h ^ 2 / 12 * (2 * a2 * slope4 b1 b2 0 0 x + 2 * b2 * slope4 a1 a2 0 0 x).
Proof. intros. unfold rho, u. flat. cbn [w_rho w_u w_p w_re w_y]. unfold constant, quartic4, slope4. field. auto. Qed.
(** so the scheme is second order, not fourth *)
Theorem C150_fourth_order_refuted : forall p re y x, let w := mkFlow (quartic4 1 0 1 0 0) (quartic4 0 1 0 0 0) p re y in
  (forall z, 0 < w_rho w z) /\ orderAt 2 (fun h => divergence fourthOrderKEEP w h x 0%Z) (2 * x * x + (1 + x ^ 2) * 1) /\
  ~ orderAt 3 (fun h => divergence fourthOrderKEEP w h x 0%Z) (2 * x * x + (1 + x ^ 2) * 1) /\ ~ orderAt 4 (fun h => divergence fourthOrderKEEP w h x 0%Z) (2 * x * x + (1 + x ^ 2) * 1).
Proof.
  intros p re y x w.
  assert (E : forall h, 0 < h -> divergence fourthOrderKEEP w h x 0%Z - (2 * x * x + (1 + x ^ 2) * 1) = h ^ 2 / 6).
  { intros h H. unfold w. rewrite (C150_mass_error 1 0 1 0 1 0 p re y h x) by lra. unfold quartic4, slope4. field. }
  assert (A : forall h, 0 < h -> Rabs (divergence fourthOrderKEEP w h x 0%Z - (2 * x * x + (1 + x ^ 2) * 1)) = h ^ 2 / 6).
  { intros h H. rewrite E by auto. apply Rabs_pos_eq. pose proof (pow_lt h 2 H). lra. }
  assert (N : forall n, (3 <= n)%nat -> ~ orderAt n (fun h => divergence fourthOrderKEEP w h x 0%Z) (2 * x * x + (1 + x ^ 2) * 1)).
  { intros n Hn (C & h0 & P & H). set (h := Rmin (h0 / 2) (Rmin (1 / 2) (/ (12 * (Rabs C + 1))))).
    assert (Ca : 0 <= Rabs C) by apply Rabs_pos. assert (I : 0 < / (12 * (Rabs C + 1))) by (apply Rinv_0_lt_compat; lra).
    assert (Hp : 0 < h) by (unfold h; apply Rmin_pos; [lra|apply Rmin_pos; lra]).
    assert (H1 : h <= h0 / 2) by apply Rmin_l. assert (H2 : h <= 1 / 2) by (eapply Rle_trans; [apply Rmin_r|apply Rmin_l]).
    assert (H3 : h <= / (12 * (Rabs C + 1))) by (eapply Rle_trans; [apply Rmin_r|apply Rmin_r]). clearbody h.
    specialize (H h ltac:(lra)). rewrite A in H by auto. pose proof (pow_lt h 2 Hp) as Q.
    assert (M : h ^ n <= h ^ 2 * h).
    { replace n with (2 + (1 + (n - 3)))%nat by lia. rewrite !pow_add. apply Rmult_le_compat_l; [lra|]. rewrite pow_1. rewrite <- (Rmult_1_r h) at 3. apply Rmult_le_compat_l; [lra|].
      clear - H2 Hp. induction (n - 3)%nat as [|k IH]; cbn [pow]; [lra|]. pose proof (pow_lt h k Hp). nra. }
    assert (C * h ^ n <= Rabs C * (h ^ 2 * h)).
    { apply Rle_trans with (Rabs C * h ^ n); [apply Rmult_le_compat_r; [apply Rlt_le, pow_lt; auto|apply Rle_abs]|apply Rmult_le_compat_l; auto]. }
    assert (K : Rabs C * h <= 1 / 12).
    { apply Rle_trans with ((Rabs C + 1) * / (12 * (Rabs C + 1))); [apply Rmult_le_compat; lra|]. apply Req_le. field. lra. }
    assert (Rabs C * (h ^ 2 * h) <= h ^ 2 / 12) by (replace (Rabs C * (h ^ 2 * h)) with (h ^ 2 * (Rabs C * h)) by ring; replace (h ^ 2 / 12) with (h ^ 2 * (1 / 12)) by field; apply Rmult_le_compat_l; lra).
    lra. }
  split; [intros z; unfold w, w_rho, quartic4; pose proof (pow2_ge_0 z); lra|]. split; [|split; apply N; lia].
  exists (1 / 6), 1. split; [lra|]. intros h H. rewrite A by lra. lra.
Qed.
(** the flow of the refutation, with a pressure and an energy, at one spacing *)
Example C150_nonvacuous : let w := mkFlow (quartic4 1 0 1 0 0) (quartic4 0 1 0 0 0) (constant 1) (constant 1) (constant 0) in
  divergence fourthOrderKEEP w 1 0 0%Z = 1 + 1 / 6 /\ (1 <> 0)%R.
Proof. cbv zeta. split; [|lra]. rewrite (C150_mass_error 1 0 1 0 1 0 _ _ _ 1 0) by lra. unfold quartic4, slope4. field. Qed.
Print Assumptions C150_fourth_order_refuted.
