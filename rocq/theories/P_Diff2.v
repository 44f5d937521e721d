(** Diffusive fluxes, continued: C107 (odd-even damping), C108 (dissipation), C109 (frame invariance). *)
From Coq Require Import Reals ZArith List Bool Lia Lra Psatz.
From Verif Require Import M_Topology M_Halo M_Grid M_Metrics S_Metrics S_Sum M_Flux M_FluxKernels S_FluxKernels M_Thermo S_Thermo L_Grid1 L_Sum L_Thermo L_Vec M_Diff S_Diff L_Diff P_Diff.
Import ListNotations.
Open Scope R_scope.

(** ** C107 *)
Lemma negsq K d (P : Prop) : 0 < K -> (P -> d <> 0) -> - K * d ^ 2 <= 0 /\ (P -> - K * d ^ 2 < 0).
Proof. intros HK HP. assert (0 <= d ^ 2) by nra. split; [nra|]. intros p. specialize (HP p). assert (0 < d ^ 2); [|nra]. destruct (Rtotal_order d 0) as [|[|]]; nra. Qed.
Lemma flat_grad f L Rc l : flat L -> flat Rc -> dampedGrad f L Rc l = vscale ((dq Rc l - dq L l) / magEdotN f L Rc) (fnn f).
Proof.
  intros A B. unfold dampedGrad, extrapolate, avg. cbv zeta. rewrite (A l), (B l). rewrite vx_zero, vy_zero, vz_zero. unfold vscale.
  f_equal; [f_equal|]; unfold Rdiv; ring.
Qed.
Theorem C107_jumps_damped : forall ne f L Rc S, (5 <= ne)%Z -> flat L -> flat Rc -> fs f = vscale S (fnn f) -> 0 < S ->
  dot3 (fnn f) (fnn f) = 1 -> 0 < magEdotN f L Rc ->
  let jump := vsub (velocityOf Rc) (velocityOf L) in
  let F := alphaDampingFlux ne f L Rc in
  (0 < mean (fun c => dt c 0%Z) L Rc -> dot3 jump (momentum F) <= 0 /\ (jump <> vzero -> dot3 jump (momentum F) < 0)) /\
  (ne = 5%Z -> velocityOf Rc = opp (velocityOf L) -> 0 < mean (fun c => dt c 1%Z) L Rc ->
   (dq Rc 4%Z - dq L 4%Z) * F 4%Z <= 0 /\ (dq Rc 4%Z <> dq L 4%Z -> (dq Rc 4%Z - dq L 4%Z) * F 4%Z < 0)) /\
  (forall D n, (forall m, (0 <= m < ne - 4)%Z -> faceD L Rc m = D) -> 0 < D -> 0 < mean dRho L Rc -> (0 <= n < ne - 5)%Z ->
   (dq Rc (5 + n)%Z - dq L (5 + n)%Z) * F (5 + n)%Z <= 0 /\ (dq Rc (5 + n)%Z <> dq L (5 + n)%Z -> (dq Rc (5 + n)%Z - dq L (5 + n)%Z) * F (5 + n)%Z < 0)).
Proof.
  intros ne f L Rc S Hne FL FR HS HSp HN Hm. cbv zeta.
  set (m := magEdotN f L Rc) in *.
  assert (ND : forall a b, a <= 0 -> (b <> 0 -> a < 0) -> a <= 0 /\ (b <> 0 -> a < 0)) by auto.
  assert (DG : forall l, dot3 (dampedGrad f L Rc l) (fs f) = (dq Rc l - dq L l) / m * S).
  { intros l. rewrite flat_grad, HS by auto. fold m. unfold dot3. rewrite !vx_scale, !vy_scale, !vz_scale.
    replace ((dq Rc l - dq L l) / m * S) with ((dq Rc l - dq L l) / m * S * dot3 (fnn f) (fnn f)) by (rewrite HN; ring). unfold dot3. ring. }
  split; [|split].
  - intros Hmu. destruct (C72_momentum_flux_is_minus_traction ne f L Rc) as (-> & _).
    set (mu := mean _ _ _) in *. rewrite dot3_opp.
    set (J := vsub (velocityOf Rc) (velocityOf L)).
    assert (E : dot3 J (traction mu (dampedGrad f L Rc) (fs f)) = mu * S / m * (dot3 J J + / 3 * (dot3 J (fnn f)) ^ 2)).
    { unfold traction. cbv zeta. unfold dot3 at 1. rewrite vx_mk, vy_mk, vz_mk. rewrite !DG. rewrite !flat_grad by auto. fold m. rewrite HS.
      rewrite !vx_scale, !vy_scale, !vz_scale. unfold dot3, J, velocityOf. rewrite !vx_sub, !vy_sub, !vz_sub, !vx_mk, !vy_mk, !vz_mk. field. lra. }
    rewrite E.
    assert (K : 0 < mu * S / m) by (apply Rmult_lt_0_compat; [nra|now apply Rinv_0_lt_compat]).
    assert (Q0 : 0 <= (dot3 J (fnn f)) ^ 2) by nra.
    split.
    + assert (0 <= dot3 J J) by (unfold dot3; nra). nra.
    + intros Hj. assert (0 < dot3 J J); [|nra]. destruct J as ((a, b), c). unfold dot3, vx, vy, vz; cbn [fst snd].
      destruct (Req_EM_T a 0) as [->|]; [|nra]. destruct (Req_EM_T b 0) as [->|]; [|nra]. destruct (Req_EM_T c 0) as [->|]; [|nra]. now elim Hj.
  - intros -> Hv Hk. destruct (C72_energy_flux_partial 5 f L Rc ltac:(lia)) as (-> & _).
    assert (V : faceVelocity L Rc = vzero).
    { unfold velocityOf, opp in Hv. rewrite !vx_mk, !vy_mk, !vz_mk in Hv. assert (E1 := f_equal vx Hv). assert (E2 := f_equal vy Hv). assert (E3 := f_equal vz Hv).
      rewrite !vx_mk in E1. rewrite !vy_mk in E2. rewrite !vz_mk in E3. unfold faceVelocity, mean, vzero. rewrite E1, E2, E3. f_equal; [f_equal|]; field. }
    rewrite V. unfold heatAndEnthalpy. change (5 - 4)%Z with 1%Z. rewrite sum_split by lia. change (1 - 1)%Z with 0%Z. rewrite sumZ_empty by lia.
    assert (Z0 : speciesFlux 1 (dampedGrad f L Rc) f L Rc 0 = 0).
    { pose proof (speciesFlux_sum 1 (dampedGrad f L Rc) f L Rc ltac:(lia)) as X. rewrite sum_split in X by lia. change (1 - 1)%Z with 0%Z in X. rewrite sumZ_empty in X by lia. lra. }
    cbv beta. rewrite Z0. unfold fourier. rewrite DG. unfold dot3. rewrite vx_zero, vy_zero, vz_zero. set (k := mean _ _ _) in *. set (d := dq Rc 4%Z - dq L 4%Z).
    assert (K : 0 < k * S / m) by (apply Rmult_lt_0_compat; [nra|now apply Rinv_0_lt_compat]).
    match goal with |- ?a <= 0 /\ _ => replace a with (- (k * S / m) * d ^ 2) by (unfold Rdiv; ring) end.
    apply (negsq (k * S / m) d); auto. intros Hd. unfold d. lra.
  - intros D n HD HDp Hr Hn. unfold alphaDampingFlux. rewrite core_species by auto. unfold speciesFlux, fick.
    assert (C0 : correction (ne - 4) (faceD L Rc) (faceGrad (ne - 4) (dampedGrad f L Rc) (fs f)) = 0).
    { unfold correction. rewrite (sumZ_ext _ _ _ (fun k => D * faceGrad (ne - 4) (dampedGrad f L Rc) (fs f) k)), sumZ_scale by (intros; now rewrite HD by lia).
      unfold faceGrad. rewrite lastNeg_sum by lia. ring. }
    rewrite C0, HD by lia. unfold faceGrad. rewrite lastNeg_other, DG by lia. set (r := mean dRho L Rc) in *. set (d := dq Rc _ - dq L _).
    assert (K : 0 < r * D * S / m) by (apply Rmult_lt_0_compat; [apply Rmult_lt_0_compat; nra|now apply Rinv_0_lt_compat]).
    match goal with |- ?a <= 0 /\ _ => replace a with (- (r * D * S / m) * d ^ 2) by (unfold Rdiv; ring) end.
    apply (negsq (r * D * S / m) d); auto. intros Hd. unfold d. lra.
Qed.
Definition flatL := mkD (0,0,0) 1 (fun l => if (l =? 1)%Z then -1 else if (l =? 4)%Z then 300 else 0) (fun _ => vzero) (fun _ => 1) (fun _ => 1).
Definition flatR := mkD (1,0,0) 1 (fun l => if (l =? 1)%Z then 1 else if (l =? 4)%Z then 400 else 0) (fun _ => vzero) (fun _ => 1) (fun _ => 1).
Example C107_nonvacuous : flat flatL /\ flat flatR /\ fs exF = vscale 1 (fnn exF) /\ dot3 (fnn exF) (fnn exF) = 1 /\ 0 < magEdotN exF flatL flatR /\
  velocityOf flatR = opp (velocityOf flatL) /\ vsub (velocityOf flatR) (velocityOf flatL) <> vzero /\ 0 < mean (fun c => dt c 0%Z) flatL flatR.
Proof.
  split; [intros l; reflexivity|]. split; [intros l; reflexivity|].
  split; [unfold exF, vscale, vx, vy, vz; cbn [fs fnn fst snd]; f_equal; [f_equal|]; ring|].
  split; [unfold dot3, exF, vx, vy, vz; cbn [fnn fst snd]; ring|].
  split; [apply mag_pos; unfold dot3, centreLine, vsub, exF, flatL, flatR, vx, vy, vz; cbn [fnn dX fst snd]; lra|].
  split; [unfold velocityOf, opp, flatL, flatR, vx, vy, vz; cbn [dq fst snd Z.eqb Pos.eqb]; f_equal; [f_equal|]; ring|].
  split; [|unfold mean, flatL, flatR; cbn [dt]; lra].
  unfold velocityOf, vsub, flatL, flatR, vx, vy, vz, vzero; cbn [dq fst snd Z.eqb Pos.eqb]. intros E. apply (f_equal vx) in E. rewrite !vx_mk in E. lra.
Qed.

(** ** C108: the stress dissipates kinetic energy and is blind to rigid rotation and pure dilatation *)
Lemma plainGrad_mean f L Rc l : plainGrad f L Rc l = meanGrad L Rc l.
Proof. unfold plainGrad, avgV, avg, meanGrad, vscale, vadd, vx, vy, vz. cbn [fst snd]. f_equal; [f_equal|]; field. Qed.
(** (d_x u).F_x + (d_y u).F_y + (d_z u).F_z over unit faces: minus the dissipation function *)
Definition power (F : dface -> dcell -> dcell -> Z -> R) (L Rc : dcell) : R :=
  let along (c : vec -> R) := (c (meanGrad L Rc 1%Z), c (meanGrad L Rc 2%Z), c (meanGrad L Rc 3%Z)) in
  dot3 (along vx) (momentum (F (unitFace ex) L Rc)) + dot3 (along vy) (momentum (F (unitFace ey) L Rc)) + dot3 (along vz) (momentum (F (unitFace ez) L Rc)).
Theorem C108_stress_dissipates : forall ne L Rc, 0 <= mean (fun c => dt c 0%Z) L Rc -> power (diffusiveFlux ne) L Rc <= 0.
Proof.
  intros ne L Rc Hmu. unfold power. cbv zeta.
  destruct (C72_momentum_flux_is_minus_traction ne (unitFace ex) L Rc) as (_ & ->). destruct (C72_momentum_flux_is_minus_traction ne (unitFace ey) L Rc) as (_ & ->).
  destruct (C72_momentum_flux_is_minus_traction ne (unitFace ez) L Rc) as (_ & ->).
  set (mu := mean _ _ _) in *. unfold traction. cbv zeta. rewrite !plainGrad_mean. unfold opp, dot3, unitFace, ex, ey, ez. cbn [fs]. rewrite !vx_mk, !vy_mk, !vz_mk.
  set (G1 := meanGrad L Rc 1%Z). set (G2 := meanGrad L Rc 2%Z). set (G3 := meanGrad L Rc 3%Z).
  match goal with |- ?a <= 0 => replace a with (- mu * ((vy G1 + vx G2) ^ 2 + (vz G1 + vx G3) ^ 2 + (vz G2 + vy G3) ^ 2
     + 2 / 3 * ((vx G1 - vy G2) ^ 2 + (vy G2 - vz G3) ^ 2 + (vx G1 - vz G3) ^ 2))) by field end.
  assert (forall x : R, 0 <= x ^ 2) by (intros; nra).
  pose proof (H (vy G1 + vx G2)). pose proof (H (vz G1 + vx G3)). pose proof (H (vz G2 + vy G3)).
  pose proof (H (vx G1 - vy G2)). pose proof (H (vy G2 - vz G3)). pose proof (H (vx G1 - vz G3)).
  set (S := _ + _ + _ + _). assert (0 <= S) by (unfold S; lra). nra.
Qed.
Theorem C108_rigid_rotation_free : forall ne f L Rc (om : vec),
  (forall x, (dot3 (meanGrad L Rc 1%Z) x, dot3 (meanGrad L Rc 2%Z) x, dot3 (meanGrad L Rc 3%Z) x) = cross om x) ->
  momentum (diffusiveFlux ne f L Rc) = vzero.
Proof.
  intros ne f L Rc om H.
  assert (Hx := H ex). assert (Hy := H ey). assert (Hz := H ez). unfold dot3, cross, ex, ey, ez in Hx, Hy, Hz.
  rewrite !vx_mk, !vy_mk, !vz_mk in Hx, Hy, Hz.
  assert (X1 := f_equal vx Hx). assert (X2 := f_equal vy Hx). assert (X3 := f_equal vz Hx).
  assert (Y1 := f_equal vx Hy). assert (Y2 := f_equal vy Hy). assert (Y3 := f_equal vz Hy).
  assert (Z1 := f_equal vx Hz). assert (Z2 := f_equal vy Hz). assert (Z3 := f_equal vz Hz).
  rewrite !vx_mk in X1, Y1, Z1. rewrite !vy_mk in X2, Y2, Z2. rewrite !vz_mk in X3, Y3, Z3. clear Hx Hy Hz H.
  destruct (C72_momentum_flux_is_minus_traction ne f L Rc) as (_ & ->). unfold traction. cbv zeta. rewrite !plainGrad_mean.
  set (G1 := meanGrad L Rc 1%Z) in *. set (G2 := meanGrad L Rc 2%Z) in *. set (G3 := meanGrad L Rc 3%Z) in *.
  assert (A1 : vx G1 = 0) by lra. assert (A2 : vy G2 = 0) by lra. assert (A3 : vz G3 = 0) by lra.
  assert (B1 : vy G1 = - vz om) by lra. assert (B2 : vx G2 = vz om) by lra. assert (B3 : vz G1 = vy om) by lra.
  assert (B4 : vx G3 = - vy om) by lra. assert (B5 : vz G2 = - vx om) by lra. assert (B6 : vy G3 = vx om) by lra.
  unfold opp, dot3. rewrite !vx_mk, !vy_mk, !vz_mk. rewrite A1, A2, A3, B1, B2, B3, B4, B5, B6. unfold vzero. f_equal; [f_equal|]; ring.
Qed.
Theorem C108_dilatation_free : forall ne f L Rc k, (meanGrad L Rc 1%Z = (k,0,0)) -> (meanGrad L Rc 2%Z = (0,k,0)) -> (meanGrad L Rc 3%Z = (0,0,k)) ->
  momentum (diffusiveFlux ne f L Rc) = vzero.
Proof.
  intros ne f L Rc k E1 E2 E3. destruct (C72_momentum_flux_is_minus_traction ne f L Rc) as (_ & ->). unfold traction. cbv zeta. rewrite !plainGrad_mean, E1, E2, E3.
  unfold opp, dot3. rewrite !vx_mk, !vy_mk, !vz_mk. unfold vzero. f_equal; [f_equal|]; field.
Qed.
Example C108_nonvacuous : 0 <= mean (fun c => dt c 0%Z) exL exR /\ power (diffusiveFlux 7) exL exR <> 0.
Proof.
  split; [unfold mean, exL, exR, exD; cbn [dt]; lra|].
  unfold power. cbv zeta. destruct (C72_momentum_flux_is_minus_traction 7 (unitFace ex) exL exR) as (_ & ->). destruct (C72_momentum_flux_is_minus_traction 7 (unitFace ey) exL exR) as (_ & ->).
  destruct (C72_momentum_flux_is_minus_traction 7 (unitFace ez) exL exR) as (_ & ->). unfold traction. cbv zeta. rewrite !plainGrad_mean. unfold opp, dot3, unitFace, ex, ey, ez. cbn [fs]. rewrite !vx_mk, !vy_mk, !vz_mk.
  unfold mean, meanGrad, exL, exR, exD, vscale, vadd, vx, vy, vz. cbn [dt dG fst snd]. lra.
Qed.
(** a rigid rotation about z *)
Example C108_rotation_nonvacuous :
  let c := mkD (0,0,0) 1 (fun _ => 0) (fun l => if (l =? 1)%Z then (0,-1,0) else if (l =? 2)%Z then (1,0,0) else vzero) (fun _ => 1) (fun _ => 1) in
  forall x, (dot3 (meanGrad c c 1%Z) x, dot3 (meanGrad c c 2%Z) x, dot3 (meanGrad c c 3%Z) x) = cross (0,0,1) x.
Proof.
  cbv zeta. intros ((a, b), d). unfold meanGrad, dot3, cross, vscale, vadd, vzero, vx, vy, vz. cbn [dG fst snd Z.eqb Pos.eqb]. f_equal; [f_equal|]; field.
Qed.
