(** Diffusive fluxes, continued: C109 (frame invariance). *)
From Coq Require Import Reals ZArith List Bool Lia Lra Psatz.
From Verif Require Import M_Topology M_Halo M_Grid M_Metrics S_Metrics S_Sum M_Flux M_FluxKernels S_FluxKernels M_Thermo S_Thermo L_Grid1 L_Sum L_Thermo L_Vec M_Diff S_Diff L_Diff P_Diff P_Diff2.
Import ListNotations.
Open Scope R_scope.

Lemma dot3_back A v w : dot3 (turn A v) w = dot3 v (turnBack A w).
Proof. unfold dot3, turn, turnBack. rewrite !vx_add, !vy_add, !vz_add, !vx_scale, !vy_scale, !vz_scale, !vx_mk, !vy_mk, !vz_mk. unfold dot3. ring. Qed.
Lemma dot3_turn A v w : orthogonal A -> dot3 (turn A v) (turn A w) = dot3 v w.
Proof. intros H. rewrite dot3_back. now destruct (H w) as (-> & _). Qed.
Lemma turn_lin A k1 v1 k2 v2 k3 v3 : turn A (vadd (vadd (vscale k1 v1) (vscale k2 v2)) (vscale k3 v3)) =
  vadd (vadd (vscale k1 (turn A v1)) (vscale k2 (turn A v2))) (vscale k3 (turn A v3)).
Proof. unfold turn, dot3, vadd, vscale, vx, vy, vz. cbn [fst snd]. f_equal; [f_equal|]; ring. Qed.
Lemma vec_eq a b : vx a = vx b -> vy a = vy b -> vz a = vz b -> a = b.
Proof. destruct a as ((a1, a2), a3), b as ((b1, b2), b3). unfold vx, vy, vz; cbn [fst snd]. congruence. Qed.
Lemma avgV_turn A a b : avgV (turn A a) (turn A b) = turn A (avgV a b).
Proof. unfold avgV, avg, turn, dot3, vx, vy, vz. cbn [fst snd]. f_equal; [f_equal|]; ring. Qed.
Lemma plainGrad_turn A f f' L Rc l : plainGrad f' (turnCell A L) (turnCell A Rc) l = turnGrad A (plainGrad f L Rc) l.
Proof.
  unfold plainGrad. cbn [turnCell dG]. unfold turnGrad. cbv zeta.
  destruct (l =? 1)%Z; [|destruct (l =? 2)%Z; [|destruct (l =? 3)%Z; [|apply avgV_turn]]];
  rewrite avgV_turn; f_equal; apply vec_eq; unfold avgV, avg, vadd, vscale, vx, vy, vz; cbn [fst snd]; ring.
Qed.
Lemma traction_ext mu G G' s : G 1%Z = G' 1%Z -> G 2%Z = G' 2%Z -> G 3%Z = G' 3%Z -> traction mu G s = traction mu G' s.
Proof. intros A B C. unfold traction. now rewrite A, B, C. Qed.
Lemma traction_turn A mu G s : orthogonal A -> traction mu (turnGrad A G) (turn A s) = turn A (traction mu G s).
Proof.
  intros H.
  set (G1 := G 1%Z). set (G2 := G 2%Z). set (G3 := G 3%Z).
  assert (T1 : turnGrad A G 1%Z = vadd (vadd (vscale (vx (r1 A)) (turn A G1)) (vscale (vy (r1 A)) (turn A G2))) (vscale (vz (r1 A)) (turn A G3))) by (rewrite <- turn_lin; reflexivity).
  assert (T2 : turnGrad A G 2%Z = vadd (vadd (vscale (vx (r2 A)) (turn A G1)) (vscale (vy (r2 A)) (turn A G2))) (vscale (vz (r2 A)) (turn A G3))) by (rewrite <- turn_lin; reflexivity).
  assert (T3 : turnGrad A G 3%Z = vadd (vadd (vscale (vx (r3 A)) (turn A G1)) (vscale (vy (r3 A)) (turn A G2))) (vscale (vz (r3 A)) (turn A G3))) by (rewrite <- turn_lin; reflexivity).
  (* (G' s')_i = R (G s) *)
  assert (D : forall r, dot3 (vadd (vadd (vscale (vx r) (turn A G1)) (vscale (vy r) (turn A G2))) (vscale (vz r) (turn A G3))) (turn A s) =
     dot3 r (dot3 G1 s, dot3 G2 s, dot3 G3 s)).
  { intros r. transitivity (vx r * dot3 (turn A G1) (turn A s) + vy r * dot3 (turn A G2) (turn A s) + vz r * dot3 (turn A G3) (turn A s)).
    - unfold dot3 at 1 2 3 4. rewrite !vx_add, !vy_add, !vz_add, !vx_scale, !vy_scale, !vz_scale. ring.
    - rewrite !dot3_turn by auto. unfold dot3 at 4. rewrite vx_mk, vy_mk, vz_mk. ring. }
  (* sum_i s'_i G'_i = sum_j s_j R G_j *)
  assert (B : turnBack A (turn A s) = s) by apply (H s).
  assert (B1 := f_equal vx B). assert (B2 := f_equal vy B). assert (B3 := f_equal vz B). unfold turnBack in B1, B2, B3.
  rewrite !vx_add, !vx_scale in B1. rewrite !vy_add, !vy_scale in B2. rewrite !vz_add, !vz_scale in B3.
  assert (C : forall c : vec -> R, (c = vx \/ c = vy \/ c = vz) ->
     c (turnGrad A G 1%Z) * vx (turn A s) + c (turnGrad A G 2%Z) * vy (turn A s) + c (turnGrad A G 3%Z) * vz (turn A s) =
     c (turn A G1) * vx s + c (turn A G2) * vy s + c (turn A G3) * vz s).
  { intros c Hc. rewrite T1, T2, T3.
    assert (LC : forall k1 v1 k2 v2 k3 v3, c (vadd (vadd (vscale k1 v1) (vscale k2 v2)) (vscale k3 v3)) = k1 * c v1 + k2 * c v2 + k3 * c v3)
      by (intros; destruct Hc as [->|[->| ->]]; reflexivity).
    rewrite !LC. rewrite <- B1, <- B2, <- B3 at 1.
    replace (vx s) with (vx (turn A s) * vx (r1 A) + vy (turn A s) * vx (r2 A) + vz (turn A s) * vx (r3 A)) by exact B1.
    replace (vy s) with (vx (turn A s) * vy (r1 A) + vy (turn A s) * vy (r2 A) + vz (turn A s) * vy (r3 A)) by exact B2.
    replace (vz s) with (vx (turn A s) * vz (r1 A) + vy (turn A s) * vz (r2 A) + vz (turn A s) * vz (r3 A)) by exact B3. ring. }
  (* the divergence is a scalar *)
  assert (Dv : vx (turnGrad A G 1%Z) + vy (turnGrad A G 2%Z) + vz (turnGrad A G 3%Z) = vx G1 + vy G2 + vz G3).
  { rewrite T1, T2, T3. rewrite !vx_add, !vy_add, !vz_add, !vx_scale, !vy_scale, !vz_scale.
    assert (K1 := f_equal vx (proj1 (H G1))). assert (K2 := f_equal vy (proj1 (H G2))). assert (K3 := f_equal vz (proj1 (H G3))).
    unfold turnBack in K1, K2, K3. rewrite !vx_add, !vx_scale in K1. rewrite !vy_add, !vy_scale in K2. rewrite !vz_add, !vz_scale in K3. rewrite <- K1, <- K2, <- K3. ring. }
  unfold traction. cbv zeta. rewrite Dv, (C vx), (C vy), (C vz) by auto. fold G1 G2 G3.
  rewrite T1, T2, T3, !D. clear.
  set (g := (dot3 G1 s, dot3 G2 s, dot3 G3 s)). set (dv := vx G1 + vy G2 + vz G3).
  assert (E : forall r, dot3 r g = vx r * dot3 G1 s + vy r * dot3 G2 s + vz r * dot3 G3 s) by (intros; reflexivity).
  apply vec_eq; unfold turn at 5 || idtac; rewrite ?vx_mk, ?vy_mk, ?vz_mk.
  all: unfold turn; rewrite ?vx_mk, ?vy_mk, ?vz_mk; rewrite !E; clearbody dv; unfold dot3; rewrite ?vx_mk, ?vy_mk, ?vz_mk; ring.
Qed.
Lemma faceVelocity_turn A L Rc : faceVelocity (turnCell A L) (turnCell A Rc) = turn A (faceVelocity L Rc).
Proof. unfold faceVelocity, mean, turnCell, turnVel, turn, dot3. cbn [dq Z.eqb Pos.eqb]. rewrite !vx_mk, !vy_mk, !vz_mk. f_equal; [f_equal|]; field. Qed.
Lemma turn_opp A v : turn A (opp v) = opp (turn A v).
Proof. unfold turn. rewrite !dot3_opp. unfold opp. now rewrite !vx_mk, !vy_mk, !vz_mk. Qed.
Theorem C109_diffusive_frame_invariant : forall ne A f L Rc, (5 <= ne)%Z -> orthogonal A -> frameInvariant ne (diffusiveFlux ne) A f L Rc.
Proof.
  intros ne A f L Rc Hne HA. unfold frameInvariant.
  set (f' := turnFace A f). set (L' := turnCell A L). set (R' := turnCell A Rc). set (gr := plainGrad f L Rc).
  assert (EG : forall l, plainGrad f' L' R' l = turnGrad A gr l) by (intros; apply plainGrad_turn).
  assert (ET : traction (mean (fun c => dt c 0%Z) L' R') (plainGrad f' L' R') (fs f') = turn A (traction (mean (fun c => dt c 0%Z) L Rc) gr (fs f))).
  { change (mean (fun c => dt c 0%Z) L' R') with (mean (fun c => dt c 0%Z) L Rc). change (fs f') with (turn A (fs f)). rewrite <- traction_turn by auto. apply traction_ext; apply EG. }
  assert (SG : forall l, (4 <= l)%Z -> dot3 (plainGrad f' L' R' l) (fs f') = dot3 (gr l) (fs f)).
  { intros l Hl. rewrite EG. unfold turnGrad. cbv zeta. destruct (Z.eqb_spec l 1); [lia|]. destruct (Z.eqb_spec l 2); [lia|]. destruct (Z.eqb_spec l 3); [lia|]. apply (dot3_turn A); auto. }
  assert (FG : forall n, (0 <= n)%Z -> faceGrad (ne - 4) (plainGrad f' L' R') (fs f') n = faceGrad (ne - 4) gr (fs f) n).
  { intros n Hn. unfold faceGrad, lastNeg. destruct (n =? ne - 4 - 1)%Z; [f_equal; apply sumZ_ext; intros; apply SG; lia|apply SG; lia]. }
  assert (FY : forall n, (0 <= n < ne - 4)%Z -> faceY (ne - 4) L' R' n = faceY (ne - 4) L Rc n).
  { intros n Hn. unfold faceY. apply withLast_ext; auto. intros k Hk. unfold mean, L', R', turnCell, turnVel; cbn [dq].
    destruct (Z.eqb_spec (5 + k) 1); [lia|]. destruct (Z.eqb_spec (5 + k) 2); [lia|]. destruct (Z.eqb_spec (5 + k) 3); [lia|]. reflexivity. }
  assert (CC : correction (ne - 4) (faceD L' R') (faceGrad (ne - 4) (plainGrad f' L' R') (fs f')) = correction (ne - 4) (faceD L Rc) (faceGrad (ne - 4) gr (fs f))).
  { unfold correction. apply sumZ_ext. intros. rewrite FG by lia. reflexivity. }
  assert (SF : forall n, (0 <= n < ne - 4)%Z -> speciesFlux (ne - 4) (plainGrad f' L' R') f' L' R' n = speciesFlux (ne - 4) gr f L Rc n).
  { intros n Hn. unfold speciesFlux, fick. rewrite CC, FG, FY by lia. reflexivity. }
  split.
  - destruct (C72_momentum_flux_is_minus_traction ne f L Rc) as (_ & ->). destruct (C72_momentum_flux_is_minus_traction ne f' L' R') as (_ & ->). rewrite ET. now rewrite turn_opp.
  - intros l [->|Hl]; [unfold diffusiveFlux; now rewrite !core_mass|].
    destruct (Z.eqb_spec l 4) as [->|].
    + unfold diffusiveFlux. rewrite !core_energy by auto. fold gr. rewrite ET, CC, SF, FY by lia. unfold L' at 1, R' at 1. rewrite faceVelocity_turn, dot3_turn by auto.
      unfold fourier. rewrite SG by lia. rewrite (sumZ_ext _ _ (fun n => speciesFlux (ne - 4) (plainGrad f' L' R') f' L' R' n * faceH L' R' n) (fun n => speciesFlux (ne - 4) gr f L Rc n * faceH L Rc n)); [reflexivity|].
      intros n Hn. rewrite SF by lia. reflexivity.
    + replace l with (5 + (l - 5))%Z by lia. unfold diffusiveFlux. rewrite !core_species by lia. apply SF. lia.
Qed.
(** the 3-4-5 rotation about z *)
Definition rot345 : frame := mkFrame (3/5, -(4/5), 0) (4/5, 3/5, 0) (0, 0, 1).
Lemma rot345_orthogonal : orthogonal rot345.
Proof. intros ((a, b), c). unfold turn, turnBack, rot345, dot3, vadd, vscale, vx, vy, vz. cbn [r1 r2 r3 fst snd]. split; f_equal; try f_equal; field. Qed.
(** two cells at rest with different temperatures: turning the grid by 3-4-5 changes the heat flux *)
Theorem C109_alphaDamping_refuted : exists A f L Rc, orthogonal A /\ dot3 (fnn f) (fnn f) = 1 /\ fs f = fnn f /\ centreLine L Rc = fnn f /\ 0 < magEdotN f L Rc /\
  ~ frameInvariant 5 (alphaDampingFlux 5) A f L Rc.
Proof.
  set (L := mkD (0,0,0) 1 (fun l => if (l =? 4)%Z then 300 else 0) (fun _ => vzero) (fun _ => 1) (fun _ => 1)).
  set (Rc := mkD (1,0,0) 1 (fun l => if (l =? 4)%Z then 400 else 0) (fun _ => vzero) (fun _ => 1) (fun _ => 1)).
  exists rot345, exF, L, Rc. split; [apply rot345_orthogonal|].
  split; [unfold dot3, exF, vx, vy, vz; cbn [fnn fst snd]; ring|]. split; [reflexivity|].
  split; [unfold centreLine, L, Rc, exF, vsub, vx, vy, vz; cbn [dX fnn fst snd]; f_equal; [f_equal|]; ring|].
  assert (M1 : magEdotN exF L Rc = 1).
  { unfold magEdotN, exF, L, Rc, vx, vy, vz. cbn [fnn dX fst snd]. replace (_ + _ + _) with 1 by field. apply sqrt_1. }
  split; [lra|]. intros (_ & H). specialize (H 4%Z ltac:(lia)).
  set (f' := turnFace rot345 exF) in *. set (L' := turnCell rot345 L) in *. set (R' := turnCell rot345 Rc) in *.
  assert (V : faceVelocity L Rc = vzero) by (unfold faceVelocity, mean, L, Rc, vzero; cbn [dq Z.eqb Pos.eqb]; f_equal; [f_equal|]; field).
  assert (V' : faceVelocity L' R' = vzero).
  { unfold L', R'. rewrite faceVelocity_turn, V. unfold turn, dot3. rewrite vx_zero, vy_zero, vz_zero. unfold vzero. f_equal; [f_equal|]; ring. }
  assert (Q : forall f L Rc, faceVelocity L Rc = vzero -> alphaDampingFlux 5 f L Rc 4%Z = fourier (mean (fun c => dt c 1%Z) L Rc) (dampedGrad f L Rc) (fs f)).
  { clear. intros f L Rc V. destruct (C72_energy_flux_partial 5 f L Rc ltac:(lia)) as (-> & _). rewrite V. unfold heatAndEnthalpy. change (5 - 4)%Z with 1%Z.
    rewrite sum_split by lia. change (1 - 1)%Z with 0%Z. rewrite sumZ_empty by lia.
    pose proof (speciesFlux_sum 1 (dampedGrad f L Rc) f L Rc ltac:(lia)) as X. rewrite sum_split in X by lia. change (1 - 1)%Z with 0%Z in X. rewrite sumZ_empty in X by lia.
    rewrite Rplus_0_l in X. cbv beta. rewrite X. unfold dot3. rewrite vx_zero, vy_zero, vz_zero. ring. }
  rewrite !Q in H by auto. clear Q V V'.
  assert (FL : flat L) by (intros l; reflexivity). assert (FR : flat Rc) by (intros l; reflexivity).
  assert (Tz : turn rot345 vzero = vzero) by (unfold turn, dot3; rewrite vx_zero, vy_zero, vz_zero; unfold vzero; f_equal; [f_equal|]; ring).
  assert (FL' : flat L').
  { intros l. unfold L', turnCell, turnGrad. cbn [dG]. cbv zeta. rewrite !FL.
    assert (E : forall r, turn rot345 (vadd (vadd (vscale (vx r) vzero) (vscale (vy r) vzero)) (vscale (vz r) vzero)) = vzero).
    { intros r. rewrite turn_lin, Tz. unfold vadd, vscale, vzero, vx, vy, vz; cbn [fst snd]. f_equal; [f_equal|]; ring. }
    rewrite !E, Tz. destruct (l =? 1)%Z, (l =? 2)%Z, (l =? 3)%Z; reflexivity. }
  assert (FR' : flat R').
  { intros l. unfold R', turnCell, turnGrad. cbn [dG]. cbv zeta. rewrite !FR.
    assert (E : forall r, turn rot345 (vadd (vadd (vscale (vx r) vzero) (vscale (vy r) vzero)) (vscale (vz r) vzero)) = vzero).
    { intros r. rewrite turn_lin, Tz. unfold vadd, vscale, vzero, vx, vy, vz; cbn [fst snd]. f_equal; [f_equal|]; ring. }
    rewrite !E, Tz. destruct (l =? 1)%Z, (l =? 2)%Z, (l =? 3)%Z; reflexivity. }
  unfold fourier in H. rewrite !flat_grad in H by auto. rewrite M1 in H.
  set (m := magEdotN f' L' R') in *.
  assert (M2 : m * m = 337 / 625 /\ 0 < m).
  { assert (E : m = sqrt (337/625)).
    { unfold m, magEdotN, f', L', R', turnFace, turnCell, turn, exF, L, Rc, rot345, dot3, vx, vy, vz. cbn [fnn dX r1 r2 r3 fst snd]. f_equal. field. }
    rewrite E. split; [apply sqrt_sqrt; lra|apply sqrt_lt_R0; lra]. }
  assert (S1 : dot3 (fnn f') (fs f') = 1).
  { unfold f', turnFace; cbn [fnn fs]. rewrite dot3_turn by apply rot345_orthogonal. unfold dot3, exF, vx, vy, vz; cbn [fnn fs fst snd]; ring. }
  assert (S2 : dot3 (fnn exF) (fs exF) = 1) by (unfold dot3, exF, vx, vy, vz; cbn [fnn fs fst snd]; ring).
  assert (DS : forall k a b, dot3 (vscale k a) b = k * dot3 a b) by (intros; unfold dot3; rewrite vx_scale, vy_scale, vz_scale; ring).
  rewrite !DS, S1, S2 in H. unfold mean, L', R', L, Rc, turnCell, turnVel in H. cbn [dt dq Z.eqb Pos.eqb] in H.
  destruct M2 as (M2 & M3). assert (m = 1); [|subst; nra]. apply (Rmult_eq_reg_r (/ m)); [|apply Rinv_neq_0_compat; lra]. rewrite Rinv_r by lra. unfold Rdiv in H. lra.
Qed.
Print Assumptions C72_viscous_work_refuted.
Print Assumptions C104_alphaDamping_antisymmetric.
Print Assumptions C109_alphaDamping_refuted.
