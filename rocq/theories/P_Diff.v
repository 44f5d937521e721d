(** Diffusive fluxes: C71, C72 and C104 - C109. *)
From Coq Require Import Reals ZArith List Bool Lia Lra Psatz.
From Verif Require Import M_Topology M_Halo M_Grid M_Metrics S_Metrics S_Sum M_Flux M_FluxKernels S_FluxKernels M_Thermo S_Thermo L_Grid1 L_Sum L_Thermo L_Vec M_Diff S_Diff L_Diff.
Import ListNotations.
Open Scope R_scope.

(** a 3-species face used in the examples: ne = 7 *)
Definition exD (x u T : R) (Y : Z -> R) : dcell :=
  mkD (x, 0, 0) 1 (fun l => if (l =? 1)%Z then u else if (l =? 2)%Z then 2 else if (l =? 4)%Z then T else if (5 <=? l)%Z then Y l else 0)
      (fun l => (1, 2, 3)) (fun l => 1) (fun l => IZR l).
Definition exL := exD 0 1 300 (fun _ => 1/4).
Definition exR := exD 1 2 400 (fun l => if (l =? 5)%Z then 1/2 else 1/8).
Definition exF := mkDF (1, 0, 0) (1, 0, 0) (1/2, 0, 0).

(** ** C71 *)
Lemma fick_sum ns rho D g Y : (1 <= ns)%Z -> sumZ 0 ns Y = 1 -> sumZ 0 ns (fick ns rho D g Y) = 0.
Proof.
  intros H HY. unfold fick. rewrite sumZ_plus.
  rewrite (sumZ_ext 0 ns (fun i => - rho * D i * g i) (fun i => - rho * (D i * g i))) by (intros; ring).
  rewrite (sumZ_ext 0 ns (fun i => Y i * rho * correction ns D g) (fun i => (rho * correction ns D g) * Y i)) by (intros; ring).
  rewrite !sumZ_scale, HY. unfold correction. ring.
Qed.
Lemma speciesFlux_sum ns G f L Rc : (1 <= ns)%Z -> sumZ 0 ns (speciesFlux ns G f L Rc) = 0.
Proof. intros. unfold speciesFlux. apply fick_sum; auto. unfold faceY. now apply sum_withLast. Qed.

(** the fluxes of the stored species are corrected Fick fluxes, the fluxes of all species add up to the (zero) mass
    flux, and the flux left over for the last species is its own corrected Fick flux *)
Definition speciesClose (ne : Z) (G : gradient) (F : Z -> R) (f : dface) (L Rc : dcell) : Prop :=
  let ns := (ne - 4)%Z in
  F 0%Z = 0 /\ (forall n, (0 <= n < ns - 1)%Z -> F (5 + n)%Z = speciesFlux ns G f L Rc n) /\
  sumZ 0 ns (speciesFlux ns G f L Rc) = 0 /\
  F 0%Z - sumZ 0 (ns - 1) (fun n => F (5 + n)%Z) = speciesFlux ns G f L Rc (ns - 1).
Lemma core_close gr lc ne f L Rc : (5 <= ne)%Z -> speciesClose ne gr (diffCore gr lc ne f L Rc) f L Rc.
Proof.
  intros H. unfold speciesClose. cbv zeta. rewrite core_mass.
  assert (S : forall n, (0 <= n < ne - 4 - 1)%Z -> diffCore gr lc ne f L Rc (5 + n)%Z = speciesFlux (ne - 4) gr f L Rc n)
    by (intros; apply core_species; lia).
  split; [auto|]. split; [auto|]. pose proof (speciesFlux_sum (ne - 4) gr f L Rc ltac:(lia)) as Z0. split; [auto|].
  rewrite sum_split in Z0 by lia. rewrite (sumZ_ext _ _ _ (speciesFlux (ne - 4) gr f L Rc) S). lra.
Qed.
Theorem C71_alphaDamping_species_close : forall ne f L Rc, (5 <= ne)%Z ->
  speciesClose ne (dampedGrad f L Rc) (alphaDampingFlux ne f L Rc) f L Rc.
Proof. intros. now apply core_close. Qed.
Theorem C71_diffusive_species_close : forall ne f L Rc, (5 <= ne)%Z ->
  speciesClose ne (plainGrad f L Rc) (diffusiveFlux ne f L Rc) f L Rc.
Proof. intros. now apply core_close. Qed.
Lemma zr02 : zrange 0 2 = [0; 1]%Z. Proof. reflexivity. Qed.
Example C71_nonvacuous : diffusiveFlux 7 exF exL exR 5%Z <> 0.
Proof.
  change 5%Z with (5 + 0)%Z. unfold diffusiveFlux. rewrite core_species by lia. change (7 - 4)%Z with 3%Z.
  unfold speciesFlux, fick, correction, faceGrad, faceY, lastNeg, withLast, sumZ. change (zrange 0 3) with [0; 1; 2]%Z. change (zrange 0 (3 - 1)) with [0; 1]%Z.
  cbn [map fold_right]. cbn [Z.eqb Z.sub Z.add Z.opp Z.pos_sub Pos.pred_double Pos.eqb Pos.add]. unfold faceD, mean, plainGrad, avgV, avg, exL, exR, exD, exF, dot3, vx, vy, vz. cbn. lra.
Qed.

(** ** C72 *)
Theorem C72_momentum_flux_is_minus_traction : forall ne f L Rc,
  momentum (alphaDampingFlux ne f L Rc) = opp (traction (mean (fun c => dt c 0%Z) L Rc) (dampedGrad f L Rc) (fs f)) /\
  momentum (diffusiveFlux ne f L Rc) = opp (traction (mean (fun c => dt c 0%Z) L Rc) (plainGrad f L Rc) (fs f)).
Proof.
  intros. unfold momentum, alphaDampingFlux, diffusiveFlux. rewrite !core_momentum by auto. split; reflexivity.
Qed.
Lemma energy_all gr lc ne f L Rc : (5 <= ne)%Z -> lc (faceY (ne - 4) L Rc (ne - 4 - 1)%Z) = faceY (ne - 4) L Rc (ne - 4 - 1)%Z ->
  diffCore gr lc ne f L Rc 4%Z = - dot3 (faceVelocity L Rc) (momentum (diffCore gr lc ne f L Rc)) + heatAndEnthalpy (ne - 4) gr f L Rc.
Proof.
  intros H HY. rewrite core_energy by auto. rewrite HY. unfold momentum. rewrite !core_momentum by auto. unfold heatAndEnthalpy.
  rewrite (sum_split (ne - 4)) by lia. replace (ne - 4 - 1)%Z with (ne - 5)%Z by lia. cbv beta.
  set (S := sumZ 0 (ne - 5) _). set (J := speciesFlux _ _ _ _ _ _). set (h := faceH _ _ _). set (q := fourier _ _ _). set (t := traction _ _ _).
  unfold dot3 at 2. rewrite vx_mk, vy_mk, vz_mk. unfold dot3. ring.
Qed.
(** what the kernels compute: heat and enthalpy fluxes as they should be, viscous work with the opposite sign *)
Theorem C72_energy_flux_partial : forall ne f L Rc, (5 <= ne)%Z ->
  alphaDampingFlux ne f L Rc 4%Z = - dot3 (faceVelocity L Rc) (momentum (alphaDampingFlux ne f L Rc)) + heatAndEnthalpy (ne - 4) (dampedGrad f L Rc) f L Rc /\
  (0 <= faceY (ne - 4) L Rc (ne - 4 - 1)%Z ->
   diffusiveFlux ne f L Rc 4%Z = - dot3 (faceVelocity L Rc) (momentum (diffusiveFlux ne f L Rc)) + heatAndEnthalpy (ne - 4) (plainGrad f L Rc) f L Rc).
Proof.
  intros ne f L Rc H. split; [now apply energy_all|]. intros HY. apply energy_all; auto. now rewrite Rmax_left.
Qed.
(** hence they agree with the stated energy flux only where the viscous work vanishes *)
Theorem C72_viscous_work_partial : forall ne f L Rc, (5 <= ne)%Z ->
  alphaDampingFlux ne f L Rc 4%Z = dot3 (faceVelocity L Rc) (momentum (alphaDampingFlux ne f L Rc)) + heatAndEnthalpy (ne - 4) (dampedGrad f L Rc) f L Rc
  <-> dot3 (faceVelocity L Rc) (momentum (alphaDampingFlux ne f L Rc)) = 0.
Proof. intros ne f L Rc H. destruct (C72_energy_flux_partial ne f L Rc H) as (E & _). rewrite E. lra. Qed.
Theorem C72_viscous_work_refuted : exists ne f L Rc, (5 <= ne)%Z /\ dot3 (fnn f) (fnn f) = 1 /\ fs f = fnn f /\ magEdotN f L Rc = 1 /\
  0 <= faceY (ne - 4) L Rc (ne - 4 - 1)%Z /\
  alphaDampingFlux ne f L Rc 4%Z <> dot3 (faceVelocity L Rc) (momentum (alphaDampingFlux ne f L Rc)) + heatAndEnthalpy (ne - 4) (dampedGrad f L Rc) f L Rc /\
  diffusiveFlux ne f L Rc 4%Z <> dot3 (faceVelocity L Rc) (momentum (diffusiveFlux ne f L Rc)) + heatAndEnthalpy (ne - 4) (plainGrad f L Rc) f L Rc.
Proof.
  exists 5%Z, exF, exL, exR.
  assert (M : magEdotN exF exL exR = 1).
  { unfold magEdotN, exF, exL, exR, exD, vx, vy, vz. cbn [fnn dX fst snd]. replace (_ + _ + _) with 1 by field. apply sqrt_1. }
  assert (Y0 : faceY (5 - 4) exL exR (5 - 4 - 1)%Z = 1) by (change (5 - 4)%Z with 1%Z; unfold faceY; rewrite withLast_last; change (1 - 1)%Z with 0%Z; rewrite sumZ_empty by lia; ring).
  destruct (C72_energy_flux_partial 5 exF exL exR ltac:(lia)) as (E1 & E2). rewrite Y0 in E2. specialize (E2 ltac:(lra)).
  destruct (C72_momentum_flux_is_minus_traction 5 exF exL exR) as (M1 & M2).
  split; [lia|]. split; [unfold dot3, exF, vx, vy, vz; cbn [fnn fst snd]; ring|]. split; [reflexivity|]. split; [exact M|]. split; [rewrite Y0; lra|].
  rewrite E1, E2, M1, M2.
  assert (W1 : dot3 (faceVelocity exL exR) (opp (traction (mean (fun c => dt c 0%Z) exL exR) (dampedGrad exF exL exR) (fs exF))) <> 0).
  { unfold dampedGrad. cbv zeta. rewrite M. unfold faceVelocity, traction, opp, dot3, mean, extrapolate, avg, exF, exL, exR, exD, vx, vy, vz. cbn [fs fnn fx dt dq dG dX fst snd Z.eqb Z.leb Z.compare Pos.eqb Pos.compare Pos.compare_cont]. lra. }
  assert (W2 : dot3 (faceVelocity exL exR) (opp (traction (mean (fun c => dt c 0%Z) exL exR) (plainGrad exF exL exR) (fs exF))) <> 0).
  { unfold plainGrad, avgV. unfold faceVelocity, traction, opp, dot3, mean, avg, exF, exL, exR, exD, vx, vy, vz. cbn [fs fnn fx dt dq dG dX fst snd Z.eqb Z.leb Z.compare Pos.eqb Pos.compare Pos.compare_cont]. lra. }
  split; intros X; [apply W1|apply W2]; lra.
Qed.
(** An observer moving at constant velocity: the stresses do not change, and the energy flux should change by v . (momentum
    flux); it changes by the negative of that. *)
Theorem C72_galilean_shift : forall ne v f L Rc, (5 <= ne)%Z ->
  momentum (alphaDampingFlux ne f (addVelocity v L) (addVelocity v Rc)) = momentum (alphaDampingFlux ne f L Rc) /\
  alphaDampingFlux ne f (addVelocity v L) (addVelocity v Rc) 4%Z = alphaDampingFlux ne f L Rc 4%Z - dot3 v (momentum (alphaDampingFlux ne f L Rc)).
Proof.
  intros ne v f L Rc H.
  assert (G : forall l, dampedGrad f (addVelocity v L) (addVelocity v Rc) l = dampedGrad f L Rc l).
  { intros l. unfold dampedGrad. cbv zeta. change (magEdotN f (addVelocity v L) (addVelocity v Rc)) with (magEdotN f L Rc).
    replace (extrapolate f (addVelocity v Rc) l - extrapolate f (addVelocity v L) l) with (extrapolate f Rc l - extrapolate f L l); [reflexivity|].
    unfold extrapolate, addVelocity; cbn [dq dG dX]. destruct (l =? 1)%Z; [ring|]. destruct (l =? 2)%Z; [ring|]. destruct (l =? 3)%Z; ring. }
  assert (M : momentum (alphaDampingFlux ne f (addVelocity v L) (addVelocity v Rc)) = momentum (alphaDampingFlux ne f L Rc)).
  { destruct (C72_momentum_flux_is_minus_traction ne f L Rc) as (-> & _). destruct (C72_momentum_flux_is_minus_traction ne f (addVelocity v L) (addVelocity v Rc)) as (-> & _).
    unfold traction. now rewrite !G. }
  split; [exact M|].
  destruct (C72_energy_flux_partial ne f L Rc H) as (-> & _). destruct (C72_energy_flux_partial ne f (addVelocity v L) (addVelocity v Rc) H) as (-> & _).
  rewrite M.
  assert (HE : heatAndEnthalpy (ne - 4) (dampedGrad f (addVelocity v L) (addVelocity v Rc)) f (addVelocity v L) (addVelocity v Rc) = heatAndEnthalpy (ne - 4) (dampedGrad f L Rc) f L Rc).
  { unfold heatAndEnthalpy, fourier. rewrite G. f_equal. apply sumZ_ext. intros n Hn. f_equal. unfold speciesFlux, fick.
    assert (FG : forall m, faceGrad (ne - 4) (dampedGrad f (addVelocity v L) (addVelocity v Rc)) (fs f) m = faceGrad (ne - 4) (dampedGrad f L Rc) (fs f) m).
    { intros m. unfold faceGrad, lastNeg. destruct (m =? ne - 4 - 1)%Z; [f_equal; apply sumZ_ext; intros; now rewrite G|now rewrite G]. }
    assert (FY : forall m, (0 <= m < ne - 4)%Z -> faceY (ne - 4) (addVelocity v L) (addVelocity v Rc) m = faceY (ne - 4) L Rc m).
    { intros m Hm. unfold faceY. apply withLast_ext; auto. intros k Hk. unfold mean, addVelocity; cbn [dq].
      destruct (Z.eqb_spec (5 + k) 1); [lia|]. destruct (Z.eqb_spec (5 + k) 2); [lia|]. destruct (Z.eqb_spec (5 + k) 3); [lia|]. reflexivity. }
    rewrite FG, FY by auto. unfold correction. rewrite (sumZ_ext _ _ _ (fun m => faceD L Rc m * faceGrad (ne - 4) (dampedGrad f L Rc) (fs f) m)); [reflexivity|].
    intros. now rewrite FG. }
  rewrite HE. set (m := momentum _). set (h := heatAndEnthalpy _ _ _ _ _). clearbody m h.
  unfold faceVelocity, mean, addVelocity, dot3; cbn [dq Z.eqb Pos.eqb]. rewrite !vx_mk, !vy_mk, !vz_mk. field.
Qed.

(** ** C104: the two blocks sharing a face see opposite fluxes *)
Lemma opp_opp v : opp (opp v) = v. Proof. destruct v as ((a, b), c). unfold opp, vx, vy, vz. cbn [fst snd]. now rewrite !Ropp_involutive. Qed.
Lemma mag_flip f L Rc : magEdotN (flip f) Rc L = magEdotN f L Rc.
Proof. unfold magEdotN, flip, opp; cbn [fnn]; cbv zeta. rewrite vx_mk, vy_mk, vz_mk. f_equal. ring. Qed.
Lemma dampedGrad_flip f L Rc l : dampedGrad (flip f) Rc L l = dampedGrad f L Rc l.
Proof.
  unfold dampedGrad. cbv zeta. rewrite mag_flip. change (extrapolate (flip f)) with (extrapolate f). unfold flip, opp, avg; cbn [fnn]. rewrite vx_mk, vy_mk, vz_mk.
  f_equal; [f_equal|]; ring.
Qed.
Lemma plainGrad_flip f L Rc l : plainGrad (flip f) Rc L l = plainGrad f L Rc l.
Proof. unfold plainGrad, avgV, avg. f_equal; [f_equal|]; ring. Qed.
Lemma mean_swap h L Rc : mean h Rc L = mean h L Rc. Proof. unfold mean. lra. Qed.
Lemma faceY_swap ns L Rc n : (0 <= n < ns)%Z -> faceY ns Rc L n = faceY ns L Rc n.
Proof. intros. unfold faceY. apply withLast_ext; auto. intros. apply mean_swap. Qed.
Lemma dot3_opp a b : dot3 a (opp b) = - dot3 a b. Proof. unfold dot3, opp. rewrite vx_mk, vy_mk, vz_mk. ring. Qed.
Section Flip.
Variables (gr gr' : Z -> vec) (lc : R -> R) (ne : Z) (f : dface) (L Rc : dcell).
Hypothesis (Hne : (5 <= ne)%Z) (Hg : forall l, gr' l = gr l).
Let ns := (ne - 4)%Z.
Lemma faceGrad_flip n : faceGrad ns gr' (opp (fs f)) n = - faceGrad ns gr (fs f) n.
Proof.
  unfold faceGrad, lastNeg. destruct (n =? ns - 1)%Z; [|now rewrite Hg, dot3_opp].
  f_equal. rewrite (sumZ_ext _ _ _ (fun n => (-1) * dot3 (gr (5 + n)%Z) (fs f))), sumZ_scale; [ring|]. intros. rewrite Hg, dot3_opp. ring.
Qed.
Lemma correction_flip : correction ns (faceD Rc L) (faceGrad ns gr' (opp (fs f))) = - correction ns (faceD L Rc) (faceGrad ns gr (fs f)).
Proof.
  unfold correction. rewrite (sumZ_ext _ _ _ (fun m => (-1) * (faceD L Rc m * faceGrad ns gr (fs f) m))), sumZ_scale; [ring|].
  intros. rewrite faceGrad_flip. unfold faceD. rewrite mean_swap. ring.
Qed.
Lemma speciesFlux_flip n : (0 <= n < ns)%Z -> speciesFlux ns gr' (flip f) Rc L n = - speciesFlux ns gr f L Rc n.
Proof.
  intros Hn. unfold speciesFlux, fick. cbn [flip fs]. rewrite correction_flip, faceGrad_flip, (mean_swap dRho), faceY_swap by auto.
  unfold faceD. rewrite (mean_swap (fun c => dt c (2 + n)%Z)). ring.
Qed.
Lemma core_flip l : (0 <= l < ne)%Z -> diffCore gr' lc ne (flip f) Rc L l = - diffCore gr lc ne f L Rc l.
Proof.
  intros Hl.
  assert (T : traction (mean (fun c => dt c 0%Z) Rc L) gr' (fs (flip f)) = opp (traction (mean (fun c => dt c 0%Z) L Rc) gr (fs f))).
  { unfold traction. cbv zeta. cbn [flip fs]. rewrite !dot3_opp, !Hg, mean_swap. unfold opp. rewrite !vx_mk, !vy_mk, !vz_mk. f_equal; [f_equal|]; ring. }
  destruct (Z.eqb_spec l 0) as [->|]; [rewrite !core_mass; ring|].
  destruct (Z.eqb_spec l 1) as [->|]; [rewrite !core_momentum, T by auto; unfold opp; rewrite vx_mk; ring|].
  destruct (Z.eqb_spec l 2) as [->|]; [rewrite !core_momentum, T by auto; unfold opp; rewrite vy_mk; ring|].
  destruct (Z.eqb_spec l 3) as [->|]; [rewrite !core_momentum, T by auto; unfold opp; rewrite vz_mk; ring|].
  destruct (Z.eqb_spec l 4) as [->|].
  { rewrite !core_energy by auto. fold ns. rewrite T. cbn [flip fs]. rewrite correction_flip, speciesFlux_flip, faceY_swap by (unfold ns; lia).
    rewrite (mean_swap dRho). unfold fourier. rewrite Hg, dot3_opp, (mean_swap (fun c => dt c 1%Z)).
    rewrite (sumZ_ext _ _ (fun n => speciesFlux ns gr' (flip f) Rc L n * faceH Rc L n) (fun n => (-1) * (speciesFlux ns gr f L Rc n * faceH L Rc n))), sumZ_scale.
    - replace (faceVelocity Rc L) with (faceVelocity L Rc) by (unfold faceVelocity; now rewrite (mean_swap (fun c => dq c 1%Z)), (mean_swap (fun c => dq c 2%Z)), (mean_swap (fun c => dq c 3%Z))).
      unfold faceH. rewrite (mean_swap (fun c => dh c (5 + (ns - 1))%Z)). rewrite dot3_opp. ring.
    - intros j Hj. rewrite speciesFlux_flip by (unfold ns; lia). unfold faceH. rewrite mean_swap. ring. }
  replace l with (5 + (l - 5))%Z by lia. rewrite !core_species by lia. apply speciesFlux_flip. unfold ns. lia.
Qed.
End Flip.
Theorem C104_alphaDamping_antisymmetric : forall ne f L Rc l, (5 <= ne)%Z -> (0 <= l < ne)%Z ->
  alphaDampingFlux ne (flip f) Rc L l = - alphaDampingFlux ne f L Rc l.
Proof. intros. unfold alphaDampingFlux. apply core_flip; auto. intros. apply dampedGrad_flip. Qed.
Theorem C104_diffusive_antisymmetric : forall ne f L Rc l, (5 <= ne)%Z -> (0 <= l < ne)%Z ->
  diffusiveFlux ne (flip f) Rc L l = - diffusiveFlux ne f L Rc l.
Proof. intros. unfold diffusiveFlux. apply core_flip; auto. intros. apply plainGrad_flip. Qed.

(** ** C105, C106: uniform and linear fields *)
Definition centreLine (L Rc : dcell) : vec := vsub (dX Rc) (dX L).
Lemma mag_pos f L Rc : dot3 (centreLine L Rc) (fnn f) <> 0 -> 0 < magEdotN f L Rc.
Proof.
  intros H. unfold magEdotN. cbv zeta. apply sqrt_lt_R0. unfold dot3, centreLine in H. rewrite vx_sub, vy_sub, vz_sub in H.
  set (a := _ * vx (fnn f)) in *. set (b := _ * vy (fnn f)) in *. set (c := _ * vz (fnn f)) in *. clearbody a b c.
  destruct (Req_EM_T a 0); [destruct (Req_EM_T b 0); [destruct (Req_EM_T c 0); [exfalso; lra|]|]|]; nra.
Qed.
(** on any grid the damped gradient of a linear field is its gradient *)
Theorem C106_linear_gradient_exact : forall f L Rc c0 g l, dot3 (centreLine L Rc) (fnn f) <> 0 ->
  samples c0 g L l -> samples c0 g Rc l ->
  magEdotN f L Rc <> 0 /\ dampedGrad f L Rc l = g l /\ plainGrad f L Rc l = g l.
Proof.
  intros f L Rc c0 g l H (A1 & A2) (B1 & B2). pose proof (mag_pos f L Rc H). split; [lra|].
  assert (E : extrapolate f Rc l - extrapolate f L l = 0).
  { unfold extrapolate. rewrite A1, A2, B1, B2. unfold linearField. ring. }
  split; [|unfold plainGrad, avgV, avg; rewrite A2, B2; destruct (g l) as ((a, b), c); rewrite ?vx_mk, ?vy_mk, ?vz_mk; f_equal; [f_equal|]; lra].
  unfold dampedGrad. cbv zeta. rewrite E, A2, B2. unfold avg. destruct (g l) as ((a, b), c). rewrite ?vx_mk, ?vy_mk, ?vz_mk. f_equal; [f_equal|]; lra.
Qed.
(** so for linear velocity and temperature the momentum flux is the exact Newtonian stress and, without species and at rest,
    the energy flux the exact Fourier flux *)
Theorem C106_linear_flux_exact : forall f L Rc c0 g, dot3 (centreLine L Rc) (fnn f) <> 0 ->
  (forall l, (1 <= l <= 4)%Z -> samples c0 g L l /\ samples c0 g Rc l) -> forall ne, (5 <= ne)%Z ->
  momentum (alphaDampingFlux ne f L Rc) = opp (traction (mean (fun c => dt c 0%Z) L Rc) g (fs f)) /\
  momentum (diffusiveFlux ne f L Rc) = opp (traction (mean (fun c => dt c 0%Z) L Rc) g (fs f)) /\
  (faceVelocity L Rc = vzero -> alphaDampingFlux 5 f L Rc 4%Z = fourier (mean (fun c => dt c 1%Z) L Rc) g (fs f)).
Proof.
  intros f L Rc c0 g H S ne Hne.
  assert (E : forall l, (1 <= l <= 4)%Z -> dampedGrad f L Rc l = g l /\ plainGrad f L Rc l = g l).
  { intros l Hl. destruct (S l Hl) as (S1 & S2). now destruct (C106_linear_gradient_exact f L Rc c0 g l H S1 S2). }
  destruct (E 1%Z ltac:(lia)) as (D1 & P1). destruct (E 2%Z ltac:(lia)) as (D2 & P2). destruct (E 3%Z ltac:(lia)) as (D3 & P3). destruct (E 4%Z ltac:(lia)) as (D4 & P4).
  destruct (C72_momentum_flux_is_minus_traction ne f L Rc) as (-> & ->).
  split; [unfold traction; now rewrite D1, D2, D3|]. split; [unfold traction; now rewrite P1, P2, P3|].
  intros V. destruct (C72_energy_flux_partial 5 f L Rc ltac:(lia)) as (-> & _). rewrite V. unfold heatAndEnthalpy. change (5 - 4)%Z with 1%Z.
  rewrite sum_split by lia. change (1 - 1)%Z with 0%Z. rewrite sumZ_empty by lia.
  assert (Z0 : speciesFlux 1 (dampedGrad f L Rc) f L Rc 0 = 0).
  { pose proof (speciesFlux_sum 1 (dampedGrad f L Rc) f L Rc ltac:(lia)) as X. rewrite sum_split in X by lia. change (1 - 1)%Z with 0%Z in X. rewrite sumZ_empty in X by lia. lra. }
  cbv beta. rewrite Z0. unfold fourier. rewrite D4. unfold dot3 at 1. rewrite vx_zero, vy_zero, vz_zero. ring.
Qed.
(** a uniform state diffuses nothing *)
Theorem C105_uniform_no_flux : forall ne f L Rc l, (5 <= ne)%Z -> (0 <= l < ne)%Z -> flat L -> flat Rc ->
  (forall m, (1 <= m)%Z -> dq L m = dq Rc m) -> alphaDampingFlux ne f L Rc l = 0 /\ diffusiveFlux ne f L Rc l = 0.
Proof.
  intros ne f L Rc l Hne Hl FL FR EQ.
  assert (G : forall m, (1 <= m)%Z -> dampedGrad f L Rc m = vzero /\ plainGrad f L Rc m = vzero).
  { intros m Hm. unfold dampedGrad, plainGrad, avgV, avg, extrapolate. cbv zeta. rewrite (FL m), (FR m), (EQ m Hm). rewrite vx_zero, vy_zero, vz_zero.
    split; unfold vzero; f_equal; try f_equal; ring. }
  assert (C : forall gr lc, (forall m, (1 <= m)%Z -> gr m = vzero) -> diffCore gr lc ne f L Rc l = 0).
  { intros gr lc Z0.
    assert (D0 : forall s, dot3 vzero s = 0) by (intros; unfold dot3; rewrite vx_zero, vy_zero, vz_zero; ring).
    assert (T : traction (mean (fun c => dt c 0%Z) L Rc) gr (fs f) = vzero).
    { unfold traction. cbv zeta. rewrite !Z0 by lia. rewrite D0, vx_zero, vy_zero, vz_zero. unfold vzero. f_equal; [f_equal|]; ring. }
    assert (FG : forall n, (0 <= n)%Z -> faceGrad (ne - 4) gr (fs f) n = 0).
    { intros n Hn. unfold faceGrad, lastNeg. destruct (n =? ne - 4 - 1)%Z; [|rewrite Z0 by lia; apply D0].
      rewrite sumZ_zero; [ring|]. intros. rewrite Z0 by lia. apply D0. }
    assert (CC : correction (ne - 4) (faceD L Rc) (faceGrad (ne - 4) gr (fs f)) = 0) by (unfold correction; apply sumZ_zero; intros; rewrite FG by lia; ring).
    assert (SF : forall n, (0 <= n)%Z -> speciesFlux (ne - 4) gr f L Rc n = 0) by (intros n Hn; unfold speciesFlux, fick; rewrite CC, FG by lia; ring).
    destruct (Z.eqb_spec l 0) as [->|]; [apply core_mass|].
    destruct (Z.eqb_spec l 1) as [->|]; [rewrite core_momentum, T by auto; rewrite vx_zero; ring|].
    destruct (Z.eqb_spec l 2) as [->|]; [rewrite core_momentum, T by auto; rewrite vy_zero; ring|].
    destruct (Z.eqb_spec l 3) as [->|]; [rewrite core_momentum, T by auto; rewrite vz_zero; ring|].
    destruct (Z.eqb_spec l 4) as [->|].
    { rewrite core_energy, T, CC, SF by lia. unfold fourier. rewrite Z0, D0 by lia. rewrite sumZ_zero by (intros; rewrite SF by lia; ring).
      unfold dot3. rewrite vx_zero, vy_zero, vz_zero. ring. }
    replace l with (5 + (l - 5))%Z by lia. rewrite core_species by lia. apply SF. lia. }
  split; apply C; intros m Hm; now apply G.
Qed.
Example C105_C106_nonvacuous :
  let L := mkD (0,0,0) 1 (fun l => IZR l) (fun _ => vzero) (fun _ => 1) (fun _ => 1) in
  let Rc := mkD (1,0,0) 1 (fun l => IZR l) (fun _ => vzero) (fun _ => 1) (fun _ => 1) in
  flat L /\ flat Rc /\ dot3 (centreLine L Rc) (fnn exF) <> 0 /\ samples IZR (fun _ => vzero) L 1%Z.
Proof.
  cbv zeta. split; [intros l; reflexivity|]. split; [intros l; reflexivity|].
  split; [unfold dot3, centreLine, vsub, exF, vx, vy, vz; cbn [fnn dX fst snd]; lra|].
  split; [|reflexivity]. cbn [dq dX]. unfold linearField. rewrite vx_zero, vy_zero, vz_zero. ring.
Qed.
