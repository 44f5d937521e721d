(** Boundary conditions: the equations of state meet the hypotheses used; C55 - C57, C94; concrete cases. *)
From Coq Require Import Reals ZArith List Bool Lra Lia Psatz.
From Verif Require Import M_Topology M_Halo M_Grid M_Metrics S_Metrics M_Flux M_FluxKernels M_Thermo S_Thermo L_Thermo L_Vec M_Bc S_Bc L_Bc P_Bc P_Wall P_Metrics P_Thermo.
Import ListNotations.
Open Scope R_scope.

(** * the three equations of state *)
Lemma clip_keeps nsp q l : (0 <= l < 5)%Z -> clipPrims nsp q l = q l.
Proof. intros H. unfold clipPrims. rewrite isSpecies_no by lia. reflexivity. Qed.
Lemma clip_valid nsp q l : 0 <= q l <= 1 -> clipPrims nsp q l = q l.
Proof. intros H. unfold clipPrims. destruct (isSpecies nsp l); [ | reflexivity]. rewrite Rmin_left by lra. apply Rmax_left. lra. Qed.
Lemma cpg_keeps th : keepsPrimitives (5 + ns th - 1) (cpgPrims th).
Proof. split; intros c l Hl; [apply clip_keeps; auto | intros H; apply clip_valid; auto]. Qed.
Lemma tpg_keeps th : keepsPrimitives (5 + ns th - 1) (tpgPrims th).
Proof. split; intros c l Hl; [apply clip_keeps; auto | intros H; apply clip_valid; auto]. Qed.
Lemma cubic_keeps th : keepsPrimitives (5 + ns th - 1) (fun c => match cubicPrims th c with Some c' => c' | None => c end).
Proof.
  assert (Q : forall c c', cubicPrims th c = Some c' -> cq c' = clipPrims (ns th) (cq c)).
  { intros c c'. unfold cubicPrims. cbv zeta. destruct (cubicRoot _ _ _); [ | discriminate]. intros E. injection E as <-. reflexivity. }
  split; intros c l Hl; [ | intros H]; destruct (cubicPrims th c) as [c' | ] eqn:E; try reflexivity; rewrite (Q _ _ E); [apply clip_keeps; auto | apply clip_valid; auto].
Qed.
Lemma composition_ext nsp y y' : (forall n, (0 <= n < nsp - 1)%Z -> y n = y' n) -> forall n, (0 <= n < nsp)%Z -> composition nsp y n = composition nsp y' n.
Proof.
  intros H n Hn. unfold composition. cbv zeta. rewrite (accum_ext 0 (nsp - 1) y y') by auto.
  assert (L : lastY nsp y = lastY nsp y').
  { rewrite !lastY_sum. f_equal. apply L_Sum.sumZ_ext. intros; apply H; lia. }
  destruct (Rlt_dec 1 _); destruct (Z.eqb_spec n (nsp - 1)); auto; rewrite H by lia; reflexivity.
Qed.
Lemma primsY_ext nsp q q' : (forall l, (5 <= l < 5 + nsp - 1)%Z -> q l = q' l) -> forall n, (0 <= n < nsp)%Z -> primsY nsp q n = primsY nsp q' n.
Proof.
  intros H. apply composition_ext. intros n Hn. unfold clipPrims. destruct (isSpecies nsp (5 + n)) eqn:E; [ | rewrite H by lia; reflexivity].
  rewrite H by lia. reflexivity.
Qed.
Lemma storeQ_sp nsp old rho u v w E Y l : (5 <= l < 5 + nsp - 1)%Z -> storeQ nsp old rho u v w E Y l = Y (l - 5)%Z * rho.
Proof.
  intros H. unfold storeQ. destruct (Z.eqb_spec l 0); [lia | ]. destruct (Z.eqb_spec l 1); [lia | ]. destruct (Z.eqb_spec l 2); [lia | ]. destruct (Z.eqb_spec l 3); [lia | ]. destruct (Z.eqb_spec l 4); [lia | ].
  replace (isSpecies nsp l) with true by (symmetry; apply isSpecies_iff; lia). reflexivity.
Qed.
Lemma mixR_ext th Y Y' : (forall n, (0 <= n < ns th)%Z -> Y n = Y' n) -> mixR th Y = mixR th Y'.
Proof. intros H. unfold mixR. f_equal. apply accum_ext. intros; rewrite H by auto; reflexivity. Qed.
Lemma mixCp0_ext th Y Y' : (forall n, (0 <= n < ns th)%Z -> Y n = Y' n) -> mixCp0 th Y = mixCp0 th Y'.
Proof. intros H. unfold mixCp0. apply accum_ext. intros; rewrite H by auto; reflexivity. Qed.
Lemma cpg_thermoOnly th : (1 <= ns th)%Z -> thermoOnly (5 + ns th - 1) (cpgPrims th).
Proof.
  intros Hs c c' H.
  assert (HY : forall n, (0 <= n < ns th)%Z -> primsY (ns th) (cq c) n = primsY (ns th) (cq c') n) by (apply primsY_ext; intros; apply H; lia).
  assert (HP : cq c 0%Z = cq c' 0%Z) by (apply H; lia). assert (HT : cq c 4%Z = cq c' 4%Z).
  { destruct (Z.eq_dec (ns th) 1) as [E1 | E1]; [ | apply H; lia ]. apply H. lia. }
  unfold sameThermo, cpgPrims, c_rho, c_re, c_c, storeqh. cbn [cQ cq ch Z.eqb Pos.eqb].
  rewrite !clip_keeps by lia. rewrite (mixR_ext th _ _ HY), (mixCp0_ext th _ _ HY), HP, HT.
  split; [reflexivity | ]. split; [reflexivity | ]. split; [reflexivity | ].
  intros l Hl. rewrite !storeQ_sp by lia. rewrite HY by lia. split; [reflexivity | ]. unfold clipPrims. rewrite H by lia. reflexivity.
Qed.
Lemma cpg_coherent th c : coherentCell (cpgPrims th c).
Proof.
  unfold coherentCell, cpgPrims, c_rho, c_E, c_re, storeQ, storeqh, velocity, dotv, halfSq. cbn [cQ cq ch Z.eqb Pos.eqb]. rewrite vx_mk, vy_mk, vz_mk.
  split; [reflexivity | ]. split; [reflexivity | ]. split; [reflexivity | ].
  generalize (clipPrims (ns th) (cq c) 0%Z / (mixR th (primsY (ns th) (cq c)) * clipPrims (ns th) (cq c) 4%Z)). intros r.
  generalize (clipPrims (ns th) (cq c) 0%Z / r) (mixCp0 th (primsY (ns th) (cq c))). intros pr cp. field.
Qed.
(** a cell produced by the equation of state is at the equation of state *)
Lemma produced_atEos ne eos c : keepsPrimitives ne eos -> thermoOnly ne eos -> (forall x, coherentCell (eos x)) ->
  (forall l, (5 <= l < ne)%Z -> 0 <= cq c l <= 1) -> atEos ne eos (eos c).
Proof.
  intros [K1 K2] T C F. split; [ | apply C]. apply T. intros l Hl. destruct (Z_le_dec 5 l) as [G | G]; [apply K2; [lia | apply F; lia] | apply K1; lia].
Qed.

(** * concrete block: unit cubes, 3x3x3 nodes, two ghost layers; the gas of C37 *)
Definition cubeX : nodes := fun i j k => (IZR i, IZR j, IZR k).
Definition bcDims : dims := mkDims 3 3 3.
Definition bcBlk : field := fun i j k => cpgPrims exTh (mkCell (fun _ => 0) (fun l => if (l =? 0)%Z then 600 else if (l =? 1)%Z then IZR i else if (l =? 2)%Z then 1 else if (l =? 4)%Z then 100 else if (l =? 5)%Z then 1/2 else 0) (fun _ => 0)).
Definition bcFace : faceData := mkFD (fun _ _ l => if (l =? 4)%Z then 50 else if (l =? 5)%Z then 1/2 else 0) (fun _ _ l => if (l =? 1)%Z then 7 else 0) (fun r c => if (r =? c)%Z then 1 else 0) (fun r c => if (r =? c)%Z then 1 else 0).
Lemma cube_areas i j k : iArea cubeX i j k = (1, 0, 0) /\ jArea cubeX i j k = (0, 1, 0) /\ kArea cubeX i j k = (0, 0, 1).
Proof. unfold iArea, jArea, kArea, cubeX. repeat split; vext; rewrite ?plus_IZR; field. Qed.
Lemma cube_bfaceArea n a b : isBface n -> bfaceArea bcDims 2 n cubeX a b = if (n <=? 2)%Z then (1,0,0) else if (n <=? 4)%Z then (0,1,0) else (0,0,1).
Proof. intros _. unfold bfaceArea. destruct (n <=? 2)%Z; [ | destruct (n <=? 4)%Z]; apply cube_areas. Qed.
Lemma tiny_le_1 : tiny <= 1.
Proof. unfold tiny. lra. Qed.
Lemma cube_area_ok n a b : isBface n -> tiny <= sqrt (dot3 (bfaceArea bcDims 2 n cubeX a b) (bfaceArea bcDims 2 n cubeX a b)).
Proof.
  intros H. rewrite cube_bfaceArea by auto. replace (dot3 _ _) with 1; [rewrite sqrt_1; apply tiny_le_1 | ].
  destruct (n <=? 2)%Z; [ | destruct (n <=? 4)%Z]; vcomp; ring.
Qed.
Definition nrmI i j k := faceNormal (iArea cubeX i j k). Definition nrmJ i j k := faceNormal (jArea cubeX i j k). Definition nrmK i j k := faceNormal (kArea cubeX i j k).
(** every hypothesis of C51 - C54 and C93 is met by this block, on all six faces; its first interior layer moves towards the i faces *)
Example C93_nonvacuous : forall n a b, isBface n -> (2 <= a <= 3)%Z -> (2 <= b <= 3)%Z -> exists blk',
  bcEuler adiabaticNoSlipWall (cpgPrims exTh) bcDims 2 6 n bcFace nrmI nrmJ nrmK bcBlk = Some blk' /\ onBface bcDims 2 n a b /\
  tiny <= sqrt (dot3 (bfaceArea bcDims 2 n cubeX a b) (bfaceArea bcDims 2 n cubeX a b)) /\ unitv (bfaceNormal bcDims 2 n nrmI nrmJ nrmK a b) /\
  keepsPrimitives 6 (cpgPrims exTh) /\ thermoOnly 6 (cpgPrims exTh) /\ atEos 6 (cpgPrims exTh) (cellOf blk' (layerCell bcDims 2 n 1 a b)).
Proof.
  intros n a b H Ha Hb.
  destruct (C50_writes_only_the_halo (cpgPrims exTh) bcDims 2 6 n bcFace nrmI nrmJ nrmK H (or_intror eq_refl) ltac:(cbn; lia) adiabaticNoSlipWall bcBlk) as (blk' & E & W).
  assert (O : onBface bcDims 2 n a b) by (unfold onBface, bcDims; cbn [ni nj nk]; destruct (n <=? 2)%Z; [ | destruct (n <=? 4)%Z]; lia).
  assert (U : unitv (bfaceNormal bcDims 2 n nrmI nrmJ nrmK a b)).
  { replace (bfaceNormal bcDims 2 n nrmI nrmJ nrmK a b) with (faceNormal (bfaceArea bcDims 2 n cubeX a b)) by (symmetry; exact (N_eq bcDims 2 n cubeX a b)). exact (proj1 (proj2 (C21_unit_normal _ (cube_area_ok n a b H)))). }
  assert (KP : keepsPrimitives 6 (cpgPrims exTh)) by exact (cpg_keeps exTh).
  exists blk'. split; [exact E | ]. split; [exact O | ].
  split; [apply cube_area_ok; auto | ]. split; [exact U | ]. split; [exact KP | ]. split; [exact (cpg_thermoOnly exTh ltac:(cbn; lia)) | ].
  destruct (C51_impermeable (cpgPrims exTh) bcDims 2 6 n bcFace nrmI nrmJ nrmK H (or_intror eq_refl) ltac:(cbn; lia) KP ltac:(lia) adiabaticNoSlipWall bcBlk blk' ltac:(unfold isWall; cbn; tauto) E 0%Z a b ltac:(lia) O U) as (Ec & _).
  rewrite Ec. destruct (layerCell bcDims 2 n 1 a b) as [[i j] l]. cbn [cellOf]. unfold bcBlk.
  apply produced_atEos; [exact KP | exact (cpg_thermoOnly exTh ltac:(cbn; lia)) | intros; apply cpg_coherent | ].
  intros m Hm. cbn [cq]. destruct (Z.eqb_spec m 0); [lia | ]. destruct (Z.eqb_spec m 1); [lia | ]. destruct (Z.eqb_spec m 2); [lia | ]. destruct (Z.eqb_spec m 4); [lia | ]. destruct (m =? 5)%Z; lra.
Qed.

(** * C55 *)
Section Rotation.
Variables (ax : vec) (th : R).
Hypothesis U : unitv ax.
Let Rv := applyM (rotMatrix ax th).
Lemma SC : sin th * sin th = 1 - cos th * cos th. Proof. generalize (sin2_cos2 th). unfold Rsqr. lra. Qed.
Lemma Uc : vx ax * vx ax + vy ax * vy ax + vz ax * vz ax = 1. Proof. exact U. Qed.
Ltac rot := unfold Rv, applyM, rotMatrix, dotv, cross; cbn [Z.eqb Pos.eqb]; rewrite ?vx_mk, ?vy_mk, ?vz_mk; rewrite ?vx_mk, ?vy_mk, ?vz_mk;
  generalize SC Uc; set (s := sin th); set (c := cos th); clearbody s c; set (x := vx ax); set (y := vy ax); set (z := vz ax); clearbody x y z; intros S2 U2.
Lemma rot_dot v w : dotv (Rv v) (Rv w) = dotv v w.
Proof.
  rot. set (v1 := vx v). set (v2 := vy v). set (v3 := vz v). set (w1 := vx w). set (w2 := vy w). set (w3 := vz w). clearbody v1 v2 v3 w1 w2 w3.
  transitivity ((v1 * w1 + v2 * w2 + v3 * w3) * (c * c + s * s * (x * x + y * y + z * z)) +
     (x * v1 + y * v2 + z * v3) * (x * w1 + y * w2 + z * w3) * ((1 - c) * (1 - c) * (x * x + y * y + z * z) + 2 * c * (1 - c) - s * s)); [ring | ].
  rewrite U2, S2. ring.
Qed.
(** the rotation keeps lengths and angles *)
Lemma rot_axis : Rv ax = ax.
Proof.
  unfold Rv. apply L_Grid3.vec_eq; unfold applyM, rotMatrix; cbn [Z.eqb Pos.eqb]; rewrite ?vx_mk, ?vy_mk, ?vz_mk; generalize SC Uc; intros S2 U2.
  - transitivity (vx ax * (cos th + (1 - cos th) * (vx ax * vx ax + vy ax * vy ax + vz ax * vz ax))); [ring | rewrite U2; ring].
  - transitivity (vy ax * (cos th + (1 - cos th) * (vx ax * vx ax + vy ax * vy ax + vz ax * vz ax))); [ring | rewrite U2; ring].
  - transitivity (vz ax * (cos th + (1 - cos th) * (vx ax * vx ax + vy ax * vy ax + vz ax * vz ax))); [ring | rewrite U2; ring].
Qed.
(** Rodrigues: a vector normal to the axis is turned by the angle th about it *)
Lemma rot_turns v : dotv v ax = 0 -> dotv (Rv v) v = cos th * dotv v v /\ dotv ax (cross v (Rv v)) = sin th * dotv v v.
Proof.
  unfold dotv at 1. intros P. split; revert P; rot; set (v1 := vx v); set (v2 := vy v); set (v3 := vz v); clearbody v1 v2 v3; intros P.
  - transitivity (c * (v1 * v1 + v2 * v2 + v3 * v3) + (1 - c) * (v1 * x + v2 * y + v3 * z) * (v1 * x + v2 * y + v3 * z)); [ring | rewrite P; ring].
  - transitivity (s * ((v1 * v1 + v2 * v2 + v3 * v3) * (x * x + y * y + z * z) - (v1 * x + v2 * y + v3 * z) * (v1 * x + v2 * y + v3 * z))); [ring | rewrite P, U2; ring].
Qed.
Lemma rot_back v : applyM (rotMatrix ax (- th)) (Rv v) = v.
Proof.
  assert (E : forall w, dotv (applyM (rotMatrix ax (- th)) (Rv v)) w = dotv v w).
  { intros w. rewrite <- (rot_dot v w). unfold Rv, applyM, rotMatrix, dotv. rewrite sin_neg, cos_neg. cbn [Z.eqb Pos.eqb]. rewrite ?vx_mk, ?vy_mk, ?vz_mk. ring. }
  apply L_Grid3.vec_eq; [ generalize (E (1,0,0)) | generalize (E (0,1,0)) | generalize (E (0,0,1)) ]; unfold dotv; rewrite vx_mk, vy_mk, vz_mk; lra.
Qed.
End Rotation.
(** for a unit axis: both matrices are isometries, undo each other, leave the axis alone, and Up turns vectors normal to the axis by +span degrees
    (right-handed about the axis), Down by -span *)
Theorem C55_rotations : forall span ax up down, periodicMatrices (Some span) ax = Some (up, down) -> unitv ax ->
  (forall v w, dotv (applyM up v) (applyM up w) = dotv v w /\ dotv (applyM down v) (applyM down w) = dotv v w) /\
  (forall v, applyM down (applyM up v) = v /\ applyM up (applyM down v) = v) /\
  applyM up ax = ax /\ applyM down ax = ax /\
  (forall v, dotv v ax = 0 ->
     dotv (applyM up v) v = cos (span * PI / 180) * dotv v v /\ dotv ax (cross v (applyM up v)) = sin (span * PI / 180) * dotv v v /\
     dotv (applyM down v) v = cos (span * PI / 180) * dotv v v /\ dotv ax (cross v (applyM down v)) = - sin (span * PI / 180) * dotv v v).
Proof.
  intros span ax up down E U. unfold periodicMatrices in E. cbv zeta in E. set (th := span * PI / 180) in *. injection E as <- <-.
  split; [ | split; [ | split; [ | split]]].
  - intros v w. split; apply rot_dot; auto.
  - intros v. split; [apply rot_back; auto | ]. generalize (rot_back ax (- th) U v). rewrite Ropp_involutive. auto.
  - apply rot_axis; auto.
  - apply rot_axis; auto.
  - intros v P. destruct (rot_turns ax th U v P) as [T1 T2]. destruct (rot_turns ax (- th) U v P) as [T3 T4]. rewrite cos_neg in T3. rewrite sin_neg in T4. split; [exact T1 | ]. split; [exact T2 | ]. split; [exact T3 | exact T4].
Qed.
(** the span is required first *)
Theorem C55_span_required : forall ax, periodicMatrices None ax = None. Proof. reflexivity. Qed.
(** the axis is not normalised before the matrices are built (the stored axis is): a longer axis vector gives a matrix that stretches *)
Theorem C55_axis_length_refuted : exists span ax up down v, periodicMatrices (Some span) ax = Some (up, down) /\ ax <> vzero /\ dotv (applyM up v) (applyM up v) <> dotv v v /\ applyM down (applyM up v) <> v.
Proof.
  exists 180, (0, 0, 2), (rotMatrix (0,0,2) (180 * PI / 180)), (rotMatrix (0,0,2) (- (180 * PI / 180))), (0, 0, 1). split; [reflexivity | ].
  split; [unfold vzero; intros E; injection E as E; lra | ]. replace (180 * PI / 180) with PI by field.
  assert (Up : applyM (rotMatrix (0,0,2) PI) (0,0,1) = (0,0,7)).
  { unfold applyM, rotMatrix. cbn [Z.eqb Pos.eqb]. rewrite ?vx_mk, ?vy_mk, ?vz_mk. rewrite cos_PI, sin_PI. repeat apply (f_equal2 pair); ring. }
  rewrite Up. split.
  - unfold dotv. rewrite ?vx_mk, ?vy_mk, ?vz_mk. lra.
  - unfold applyM, rotMatrix. cbn [Z.eqb Pos.eqb]. rewrite ?vx_mk, ?vy_mk, ?vz_mk. rewrite cos_neg, sin_neg, cos_PI, sin_PI. intros E. injection E as _ _ E. lra.
Qed.
Example C55_nonvacuous : exists up down, periodicMatrices (Some 90) (0, 3/5, 4/5) = Some (up, down) /\ unitv (0, 3/5, 4/5).
Proof. eexists. eexists. split; [reflexivity | ]. unfold unitv, dotv. rewrite vx_mk, vy_mk, vz_mk. field. Qed.

(** in the halo of a rotational periodic face: velocity turned, momentum and energy still those of the cell *)
Theorem C55_halo_state : forall k eos d ng ne n fd nI nJ nK blk blk' span ax, isBface n -> (ng = 1 \/ ng = 2)%Z -> (2 <= ni d /\ 2 <= nj d /\ 2 <= nk d)%Z ->
  k = periodicRotLow \/ k = periodicRotHigh -> periodicMatrices (Some span) ax = Some (f_up fd, f_down fd) -> unitv ax ->
  bcEuler k eos d ng ne n fd nI nJ nK blk = Some blk' -> forall g a b, (0 <= g < ng)%Z -> onBface d ng n a b ->
  let old := cellOf blk (layerCell d ng n (- g) a b) in let new := cellOf blk' (layerCell d ng n (- g) a b) in
  velocity new = applyM (match k with periodicRotHigh => f_up fd | _ => f_down fd end) (velocity old) /\
  (forall l, (l = 0 \/ 4 <= l)%Z -> cq new l = cq old l /\ cQ new l = cQ old l) /\ ch new = ch old /\
  (coherentCell old -> coherentCell new).
Proof.
  intros k eos d ng ne n fd nI nJ nK blk blk' span ax Hn Hg D Hk M U E g a b G O old new.
  assert (Hk' : k <> nullBc) by (destruct Hk; subst; discriminate).
  assert (Q := euler_at eos d ng ne n fd nI nJ nK Hn Hg D k blk blk' Hk' E g a b G O). fold old new in Q.
  set (Rm := match k with periodicRotHigh => f_up fd | _ => f_down fd end).
  destruct (C55_rotations span ax _ _ M U) as (Iso & _).
  assert (IsoR : dotv (applyM Rm (velocity old)) (applyM Rm (velocity old)) = dotv (velocity old) (velocity old)).
  { unfold Rm. destruct (Iso (velocity old) (velocity old)) as [I1 I2]. destruct Hk as [-> | ->]; assumption. }
  assert (Q' : new = let '(u, v, w) := rotate Rm (cq old 1%Z) (cq old 2%Z) (cq old 3%Z) in
      mkCell (withVel (cQ old) (u * cQ old 0%Z) (v * cQ old 0%Z) (w * cQ old 0%Z)) (withVel (cq old) u v w) (ch old)).
  { rewrite Q. unfold Rm. destruct Hk as [-> | ->]; reflexivity. }
  clear Q. unfold rotate in Q'.
  assert (V : velocity new = applyM Rm (velocity old)) by (rewrite Q'; reflexivity).
  assert (L : forall l, (l = 0 \/ 4 <= l)%Z -> cq new l = cq old l /\ cQ new l = cQ old l).
  { intros l Hl. rewrite Q'. cbn [cq cQ]. unfold withVel. destruct (Z.eqb_spec l 1); [lia | ]. destruct (Z.eqb_spec l 2); [lia | ]. destruct (Z.eqb_spec l 3); [lia | ]. split; reflexivity. }
  split; [exact V | ]. split; [exact L | ]. split; [rewrite Q'; reflexivity | ].
  intros (_ & _ & _ & C4). assert (R0 : c_rho new = c_rho old) by (apply L; lia). assert (E4 : c_E new = c_E old) by (apply L; lia).
  assert (Re : c_re new = c_re old) by (rewrite Q'; reflexivity).
  unfold coherentCell. rewrite E4, Re, R0, V, IsoR, C4. unfold c_rho. rewrite Q'. cbn [cQ cq]. unfold withVel. cbn [Z.eqb Pos.eqb].
  split; [ring | ]. split; [ring | ]. split; [ring | reflexivity].
Qed.

(** * C94: gradients at rotational periodic faces.  A scalar field c0 + g.x, turned by the rotation R, is x |-> c0 + g.(R^-1 x); its gradient is R g. *)
Theorem C94_scalar_gradients : forall k fd span ax l g1 g0, periodicMatrices (Some span) ax = Some (f_up fd, f_down fd) -> unitv ax ->
  k = periodicRotLow \/ k = periodicRotHigh ->
  let Rm := match k with periodicRotHigh => f_up fd | _ => f_down fd end in let Rback := match k with periodicRotHigh => f_down fd | _ => f_up fd end in
  forall c0 x, c0 + dotv (postVal k fd l g1 g0) x = c0 + dotv g0 (applyM Rback x).
Proof.
  intros k fd span ax l g1 g0 M U Hk Rm Rb c0 x. f_equal. destruct (C55_rotations span ax _ _ M U) as (Iso & Bk & _).
  assert (P : postVal k fd l g1 g0 = applyM Rm g0) by (unfold Rm; destruct Hk as [-> | ->]; reflexivity). rewrite P.
  assert (B : applyM Rm (applyM Rb x) = x) by (unfold Rm, Rb; destruct (Bk x); destruct Hk as [-> | ->]; assumption).
  rewrite <- B at 1. unfold Rm. destruct (Iso g0 (applyM Rb x)) as [I1 I2]. destruct Hk as [-> | ->]; assumption.
Qed.
(** A velocity field u(x) = G x turned by R is x |-> R G (R^-1 x).  The code turns only the direction of differentiation, not the components: *)
Definition rowsOf (fd : faceData) (k : bcKind) (G : Z -> vec) : Z -> vec := fun l => postVal k fd l (G l) (G l).
Theorem C94_velocity_gradients_refuted : exists fd span ax (G : Z -> vec) x, periodicMatrices (Some span) ax = Some (f_up fd, f_down fd) /\ unitv ax /\
  let field y := (dotv (G 1%Z) y, dotv (G 2%Z) y, dotv (G 3%Z) y) in
  (dotv (rowsOf fd periodicRotHigh G 1%Z) x, dotv (rowsOf fd periodicRotHigh G 2%Z) x, dotv (rowsOf fd periodicRotHigh G 3%Z) x)
    <> applyM (f_up fd) (field (applyM (f_down fd) x)).
Proof.
  exists (mkFD (fun _ _ _ => 0) (fun _ _ _ => 0) (rotMatrix (0,0,1) (180 * PI / 180)) (rotMatrix (0,0,1) (- (180 * PI / 180)))), 180, (0,0,1), (fun l => if (l =? 1)%Z then (1,0,0) else (0,0,0)), (1,0,0).
  cbn [f_up f_down]. split; [reflexivity | ]. split; [unfold unitv, dotv; rewrite vx_mk, vy_mk, vz_mk; ring | ]. replace (180 * PI / 180) with PI by field.
  cbv zeta. unfold rowsOf, postVal, rotate, applyM, rotMatrix, dotv. cbn [Z.eqb Pos.eqb f_up f_down]. rewrite ?vx_mk, ?vy_mk, ?vz_mk. rewrite ?cos_neg, ?sin_neg, ?cos_PI, ?sin_PI.
  intros E. injection E as E _ _. lra.
Qed.

(** * C56 *)
(** on face 1, whose own normals the condition happens to read: the outgoing Riemann invariant and the total enthalpy of the first interior cell are
    kept, and the static values are the isentropic ones for the given total pressure and temperature *)
Theorem C56_face1_partial : forall eos d ng ne fd nI nJ nK blk blk', (ng = 1 \/ ng = 2)%Z -> (2 <= ni d /\ 2 <= nj d /\ 2 <= nk d)%Z -> keepsPrimitives ne eos -> (5 <= ne)%Z ->
  bcEuler stagnationSubsonicInlet eos d ng ne 1 fd nI nJ nK blk = Some blk' -> forall g a b, (0 <= g < ng)%Z -> onBface d ng 1 a b ->
  let c := cellOf blk (layerCell d ng 1 1 a b) in let h := cellOf blk' (layerCell d ng 1 (- g) a b) in let N := bfaceNormal d ng 1 nI nJ nK a b in
  let gam := ch c 0%Z in unitv N -> 1 < gam -> 0 < ch c 3%Z ->
  exists cb V, velocity h = vscale V N /\
    V - 2 * cb / (gam - 1) = dotv (velocity c) N - 2 * ch c 3%Z / (gam - 1) /\
    cb ^ 2 / (gam - 1) + V ^ 2 / 2 = ch c 3%Z ^ 2 / (gam - 1) + dotv (velocity c) (velocity c) / 2 /\
    cq h 4%Z = f_qBc fd a b 4%Z / (1 + (gam - 1) / 2 * (V / cb) ^ 2) /\
    cq h 0%Z = f_qBc fd a b 0%Z * Rpower (1 + (gam - 1) / 2 * (V / cb) ^ 2) (- gam / (gam - 1)).
Proof.
  intros eos d ng ne fd nI nJ nK blk blk' Hg D He Hne E g a b G O c h N gam U Hgam Hc.
  assert (Hn : isBface 1) by (unfold isBface; lia).
  assert (Q := euler_at eos d ng ne 1 fd nI nJ nK Hn Hg D stagnationSubsonicInlet blk blk' ltac:(discriminate) E g a b G O). fold c h in Q. cbn [finish] in Q.
  change (slice (loopNormal stagnationSubsonicInlet nI nJ nK 1) 1 (if Z.odd 1 then ng else (nodesAlong d 1 + ng - 1)%Z) a b) with N in Q.
  cbn [eulerCell] in Q. unfold stagnation in Q. fold gam in Q. cbv zeta in Q.
  set (cs := ch c 3%Z) in *. set (un := cq c 1%Z * vx N + cq c 2%Z * vy N + cq c 3%Z * vz N) in *.
  set (V2 := sqrt (cq c 1%Z ^ 2 + cq c 2%Z ^ 2 + cq c 3%Z ^ 2)) in *.
  set (Jm := - un + 2 * cs / (gam - 1)) in *. set (Ht := cs ^ 2 / (gam - 1) + 5 / 10 * V2 ^ 2) in *.
  set (aa := 1 + 2 / (gam - 1)) in *. set (bb := - 2 * Jm) in *. set (cc := (gam - 1) * (5 / 10 * Jm ^ 2 - Ht)) in *.
  set (t1 := - bb / (2 * aa)) in *. set (t2 := sqrt (bb ^ 2 - 4 * aa * cc) / (2 * aa)) in *. set (cb := Rmax (t1 + t2) (t1 - t2)) in *.
  set (Vb := 2 * cb / (gam - 1) - Jm) in *.
  assert (Vsq : V2 ^ 2 = dotv (velocity c) (velocity c)).
  { unfold V2. replace (sqrt _ ^ 2) with (sqrt (cq c 1%Z ^ 2 + cq c 2%Z ^ 2 + cq c 3%Z ^ 2) * sqrt (cq c 1%Z ^ 2 + cq c 2%Z ^ 2 + cq c 3%Z ^ 2)) by ring.
    rewrite sqrt_sqrt by nra. unfold dotv, velocity. rewrite ?vx_mk, ?vy_mk, ?vz_mk. ring. }
  assert (Cau : un ^ 2 <= V2 ^ 2).
  { rewrite Vsq. unfold unitv, dotv in U. unfold un, dotv, velocity. rewrite ?vx_mk, ?vy_mk, ?vz_mk.
    set (u := cq c 1%Z). set (v := cq c 2%Z). set (w := cq c 3%Z). set (x := vx N) in *. set (y := vy N) in *. set (z := vz N) in *.
    assert (La : (u * x + v * y + w * z) ^ 2 + ((u * y - v * x) ^ 2 + (v * z - w * y) ^ 2 + (u * z - w * x) ^ 2) = (u * u + v * v + w * w) * (x * x + y * y + z * z)) by ring.
    rewrite U in La. generalize (pow2_ge_0 (u * y - v * x)) (pow2_ge_0 (v * z - w * y)) (pow2_ge_0 (u * z - w * x)). lra. }
  assert (g1 : gam - 1 <> 0) by lra.
  assert (Aa : 0 < aa) by (unfold aa; assert (0 < 2 / (gam - 1)) by (apply Rdiv_lt_0_compat; lra); lra).
  assert (Disc : 0 <= bb ^ 2 - 4 * aa * cc).
  { assert (X : bb ^ 2 - 4 * aa * cc = 4 * (un + cs) ^ 2 + 2 * (gam + 1) * (V2 ^ 2 - un ^ 2)) by (unfold bb, aa, cc, Ht, Jm; field; auto).
    rewrite X. generalize (pow2_ge_0 (un + cs)). nra. }
  assert (Root : aa * cb ^ 2 + bb * cb + cc = 0).
  { set (sq := sqrt (bb ^ 2 - 4 * aa * cc)) in *. assert (S2 : sq * sq = bb ^ 2 - 4 * aa * cc) by (apply sqrt_sqrt; exact Disc).
    assert (Cb : cb = (- bb + sq) / (2 * aa) \/ cb = (- bb - sq) / (2 * aa)).
    { unfold cb, Rmax. destruct (Rle_dec _ _); [right | left]; unfold t1, t2; field; lra. }
    destruct Cb as [-> | ->].
    - transitivity ((sq * sq - (bb ^ 2 - 4 * aa * cc)) / (4 * aa)); [field; lra | rewrite S2; field; lra].
    - transitivity ((sq * sq - (bb ^ 2 - 4 * aa * cc)) / (4 * aa)); [field; lra | rewrite S2; field; lra]. }
  exists cb, Vb.
  assert (Hl : forall l, (0 <= l < 5)%Z -> cq h l = withVel (fun l => if (l =? 0)%Z then f_qBc fd a b 0%Z * Rpower (1 + (gam - 1) / 2 * (Vb / cb) ^ 2) (- gam / (gam - 1))
         else if (l =? 4)%Z then f_qBc fd a b 4%Z / (1 + (gam - 1) / 2 * (Vb / cb) ^ 2) else f_qBc fd a b l) (Vb * vx N) (Vb * vy N) (Vb * vz N) l).
  { intros l Hl. rewrite Q. rewrite (proj1 He) by exact Hl. cbn [setCq cq]. rewrite inB by lia. reflexivity. }
  split; [unfold velocity; rewrite !Hl by lia; reflexivity | ].
  split; [unfold Vb, Jm, dotv, velocity; rewrite ?vx_mk, ?vy_mk, ?vz_mk; fold un; ring | ].
  split.
  - rewrite <- Vsq. replace (V2 ^ 2 / 2) with (5 / 10 * V2 ^ 2) by field. fold Ht.
    assert (X : cb ^ 2 / (gam - 1) + Vb ^ 2 / 2 - Ht = (aa * cb ^ 2 + bb * cb + cc) / (gam - 1)) by (unfold Vb, aa, bb, cc; field; auto).
    rewrite Root in X. unfold Rdiv in X at 3. rewrite Rmult_0_l in X. lra.
  - split; rewrite Hl by lia; reflexivity.
Qed.
(** ... but on the j and k faces it still reads the normals of the i faces: here the face normal is (0,1,0), the i normals are (1,0,0), and fluid is
    made to enter parallel to the face *)
Definition stagCell : cell := mkCell (fun _ => 1) (fun l => if (l =? 1)%Z then 1 else 0) (fun l => if (l =? 0)%Z then 2 else 10).
Lemma stag_value : stagnation (1, 0, 0) stagCell = (2, 1, 1 / 10).
Proof.
  unfold stagnation, stagCell. cbn [cq ch Z.eqb Pos.eqb]. rewrite vx_mk, vy_mk, vz_mk. cbv zeta.
  replace (1 ^ 2 + 0 ^ 2 + 0 ^ 2) with 1 by ring. rewrite sqrt_1.
  match goal with |- context [sqrt ?e] => replace e with (22 * 22) by field end. rewrite sqrt_square by lra.
  match goal with |- context [Rmax ?x ?y] => replace (Rmax x y) with 10 by (symmetry; unfold Rmax; destruct (Rle_dec x y); lra) end.
  apply (f_equal2 pair); [apply (f_equal2 pair); [reflexivity | lra] | field].
Qed.
Theorem C56_own_normal_refuted : exists eos d ng ne fd nI nJ nK blk blk', keepsPrimitives ne eos /\
  bcEuler stagnationSubsonicInlet eos d ng ne 3 fd nI nJ nK blk = Some blk' /\ onBface d ng 3 1 1 /\
  let c := cellOf blk (layerCell d ng 3 1 1 1) in let h := cellOf blk' (layerCell d ng 3 0 1 1) in let N := bfaceNormal d ng 3 nI nJ nK 1 1 in
  unitv N /\ dotv (velocity c) N = 0 /\ dotv (velocity h) N = 0 /\ velocity h <> (0, 0, 0).
Proof.
  set (fd := mkFD (fun _ _ _ => 1) (fun _ _ _ => 0) (fun _ _ => 0) (fun _ _ => 0)).
  set (nI := (fun _ _ _ => (1,0,0)) : Z -> Z -> Z -> vec). set (nJ := (fun _ _ _ => (0,1,0)) : Z -> Z -> Z -> vec). set (nK := (fun _ _ _ => (0,0,1)) : Z -> Z -> Z -> vec).
  exists (fun c => c), (mkDims 2 2 2), 1%Z, 5%Z, fd, nI, nJ, nK, (fun _ _ _ => stagCell).
  assert (H3 : isBface 3) by (unfold isBface; lia).
  assert (D : (2 <= ni (mkDims 2 2 2) /\ 2 <= nj (mkDims 2 2 2) /\ 2 <= nk (mkDims 2 2 2))%Z) by (cbn; lia).
  destruct (C50_writes_only_the_halo (fun c => c) (mkDims 2 2 2) 1 5 3 fd nI nJ nK H3 (or_introl eq_refl) D stagnationSubsonicInlet (fun _ _ _ => stagCell)) as (blk' & E & _).
  exists blk'. split; [split; reflexivity | ]. split; [exact E | ].
  assert (O : onBface (mkDims 2 2 2) 1 3 1 1) by (unfold onBface; cbn; lia). split; [exact O | ].
  assert (Q := euler_at (fun c => c) (mkDims 2 2 2) 1 5 3 fd nI nJ nK H3 (or_introl eq_refl) D stagnationSubsonicInlet (fun _ _ _ => stagCell) blk' ltac:(discriminate) E 0%Z 1%Z 1%Z ltac:(lia) O).
  change (- 0)%Z with 0%Z in Q. cbv zeta. change (bfaceNormal (mkDims 2 2 2) 1 3 nI nJ nK 1 1) with ((0,1,0) : vec).
  split; [unfold unitv, dotv; rewrite vx_mk, vy_mk, vz_mk; ring | ].
  split; [unfold dotv, velocity; rewrite ?vx_mk, ?vy_mk, ?vz_mk; cbn; ring | ].
  replace (velocity (cellOf blk' (layerCell (mkDims 2 2 2) 1 3 0 1 1))) with ((1,0,0) : vec).
  - split; [unfold dotv; rewrite !vx_mk, !vy_mk, !vz_mk; ring | ]. intros X. injection X. lra.
  - rewrite Q. cbn [finish eulerCell].
    match goal with |- context [stagnation ?n ?c] => change (stagnation n c) with (stagnation (1,0,0) stagCell) end. rewrite stag_value.
    match goal with |- context [slice (loopNormal ?a ?b ?c ?d ?e) ?f ?g ?h ?i] => change (slice (loopNormal a b c d e) f g h i) with ((1,0,0) : vec) end.
    unfold velocity. cbn [setCq cq withVel Z.leb Z.ltb Z.eqb Pos.eqb Z.compare Pos.compare Pos.compare_cont andb]. rewrite vx_mk, vy_mk, vz_mk.
    cbn. apply (f_equal2 pair); [apply (f_equal2 pair) | ]; ring.
Qed.

(** * C57.  The inlet is called at any times in any order (the stages of a step go back and forth); [coef k m] below are the coefficients of piece m. *)
Definition entryCoef (cubic : Z -> Z -> Z -> Z -> Z -> R) (a b l : Z) : Z -> Z -> R := fun k m => cubic k m a b (l - 1)%Z.
Lemma Int_part_spec r z : r - 1 < IZR z <= r -> z = Int_part r.
Proof.
  intros [H1 H2]. unfold Int_part. assert (X : up r = (z + 1)%Z); [ | lia]. symmetry. apply tech_up; rewrite plus_IZR; lra.
Qed.
Lemma floor_div (x : R) N : (0 < N)%Z -> 0 <= x -> Rtrunc (x / IZR N) = (Rfloor x / N)%Z.
Proof.
  intros HN Hx. assert (HN' : 0 < IZR N) by (apply IZR_lt in HN; exact HN). unfold Rtrunc, Rfloor.
  assert (0 <= x / IZR N) by (apply Rmult_le_pos; [lra | left; apply Rinv_0_lt_compat; lra]).
  destruct (Rle_dec 0 (x / IZR N)); [ | lra]. symmetry. apply Int_part_spec.
  destruct (base_Int_part x) as [B1 B2]. set (m := Int_part x) in *.
  assert (DM : m = (N * (m / N) + m mod N)%Z) by (apply Z.div_mod; lia). assert (MB := Z.mod_pos_bound m N HN). set (qq := (m / N)%Z) in *. set (rr := (m mod N)%Z) in *.
  assert (E1 : IZR m = IZR N * IZR qq + IZR rr) by (rewrite DM, plus_IZR, mult_IZR; reflexivity).
  assert (R0 : 0 <= IZR rr) by (apply IZR_le; lia). assert (R1 : IZR rr <= IZR N - 1) by (rewrite <- minus_IZR; apply IZR_le; lia).
  assert (X : x = IZR N * (x / IZR N)) by (field; lra). set (y := x / IZR N) in *.
  split; nra.
Qed.
Lemma floor_nonneg x : 0 <= x -> (0 <= Rfloor x)%Z.
Proof. intros H. unfold Rfloor. destruct (base_Int_part x) as [_ B]. assert (-1 < IZR (Int_part x)) by lra. apply lt_IZR in H0. lia. Qed.
(** one call: the interval is valid, the local time is in [0, dt), and it is the time since the beginning of the current interval *)
Lemma spline_local N dt tme : (0 < N)%Z -> 0 < dt -> 0 <= tme ->
  let m := Rfloor (tme / dt) in let cur := Z.rem m N in
  (cur = m mod N)%Z /\ (0 <= cur < N)%Z /\ tme - IZR (Rtrunc (tme / dt / IZR N) * N) * dt - dt * IZR cur = tme - dt * IZR m /\ 0 <= tme - dt * IZR m < dt.
Proof.
  intros HN Hd Ht m cur. assert (P : 0 <= tme / dt) by (apply Rmult_le_pos; [lra | left; apply Rinv_0_lt_compat; lra]).
  assert (M0 := floor_nonneg _ P). fold m in M0. assert (C : cur = (m mod N)%Z) by (apply Z.rem_mod_nonneg; lia).
  split; [exact C | ]. split; [rewrite C; apply Z.mod_pos_bound; lia | ]. split.
  - rewrite floor_div by assumption. fold m. assert (DM : m = (N * (m / N) + m mod N)%Z) by (apply Z.div_mod; lia). rewrite <- C in DM.
    assert (E1 : IZR m = IZR N * IZR (m / N) + IZR cur) by (rewrite DM at 1; rewrite plus_IZR, mult_IZR; reflexivity). rewrite E1, mult_IZR. ring.
  - destruct (base_Int_part (tme / dt)) as [B1 B2]. fold (Rfloor (tme / dt)) in B1, B2. fold m in B1, B2.
    assert (X : tme = dt * (tme / dt)) by (field; lra). set (y := tme / dt) in *. clearbody m. nra.
Qed.
Theorem C57_interval : forall N dt tme, (0 < N)%Z -> 0 < dt -> 0 <= tme -> forall ext cubic st,
  let cur := s_cur (fst (splineCall ext cubic N dt tme st)) in
  (0 <= cur < N)%Z /\ exists turns s : R, tme = (turns * IZR N + IZR cur) * dt + s /\ 0 <= s < dt /\ exists z, turns = IZR z.
Proof.
  intros N dt tme HN Hd Ht ext cubic [s0 bv] cur. destruct (spline_local N dt tme HN Hd Ht) as (C & B & L & I).
  assert (E : cur = Z.rem (Rfloor (tme / dt)) N).
  { unfold cur, splineCall. destruct (Z.eqb_spec (Z.rem (Rfloor (tme / dt)) N) (s_cur s0)) as [e|]; cbn [fst s_cur]; congruence. }
  rewrite E. split; [exact B | ]. exists (IZR (Rfloor (tme / dt) / N)), (tme - dt * IZR (Rfloor (tme / dt))).
  split; [ | split; [exact I | eexists; reflexivity]]. rewrite C. set (m := Rfloor (tme / dt)) in *.
  assert (DM : m = (N * (m / N) + m mod N)%Z) by (apply Z.div_mod; lia).
  assert (E1 : IZR m = IZR N * IZR (m / N) + IZR (m mod N)) by (rewrite DM at 1; rewrite plus_IZR, mult_IZR; reflexivity). rewrite E1. ring.
Qed.
Definition cacheOk (cubic : Z -> Z -> Z -> Z -> Z -> R) (s : splineState) : Prop :=
  s_cur s = (-1)%Z \/ ((0 <= s_cur s)%Z /\ forall k a b m, s_alphas s k a b m = cubic k (s_cur s) a b m).
Lemma splineCall_cache ext cubic N dt tme st : (0 < N)%Z -> 0 < dt -> 0 <= tme -> cacheOk cubic (fst st) ->
  let s := fst (splineCall ext cubic N dt tme st) in s_cur s = (Rfloor (tme / dt) mod N)%Z /\ (forall k a b m, s_alphas s k a b m = cubic k (s_cur s) a b m) /\ cacheOk cubic s.
Proof.
  destruct st as [s0 bv]. intros HN Hd Ht Ok s. cbn [fst] in Ok. destruct (spline_local N dt tme HN Hd Ht) as (C & B & _).
  unfold s, splineCall. destruct (Z.eqb_spec (Z.rem (Rfloor (tme / dt)) N) (s_cur s0)) as [e|ne]; cbn [fst s_cur s_alphas].
  - destruct Ok as [X | [X Y]]; [lia | ]. split; [congruence | ]. split; [exact Y | right; auto].
  - split; [exact C | ]. split; [reflexivity | ]. right. cbn [s_cur s_alphas]. split; [lia | reflexivity].
Qed.
Theorem C57_signal : forall N dt ext cubic times tme alphas0 bv0, (0 < N)%Z -> 0 < dt -> 0 <= tme -> (forall t, In t times -> 0 <= t) ->
  let bv := snd (splineCalls ext cubic N dt (times ++ [tme]) (mkSpline (-1) alphas0, bv0)) in
  forall a b l, (0 <= a < fst ext - 1)%Z -> (0 <= b < snd ext - 1)%Z -> (1 <= l <= 3)%Z ->
  forall u, isPeriodicSpline N dt (entryCoef cubic a b l) u -> bv a b l = u tme.
Proof.
  intros N dt ext cubic times tme al bv0 HN Hd Ht HT bv a b l Ha Hb Hl u Hu. unfold bv, splineCalls. rewrite fold_left_app. cbn [fold_left].
  set (st := fold_left _ times _).
  assert (Ok : cacheOk cubic (fst st)).
  { unfold st. revert HT. cut (cacheOk cubic (fst (mkSpline (-1) al, bv0))); [ | left; reflexivity]. generalize (mkSpline (-1) al, bv0).
    induction times as [|t0 l0 IH]; intros p Hp HT; [exact Hp | ]. cbn [fold_left]. apply IH; [ | intros; apply HT; right; assumption].
    apply splineCall_cache; auto. apply HT. left. reflexivity. }
  destruct (splineCall_cache ext cubic N dt tme st HN Hd Ht Ok) as (C1 & C2 & _). destruct (spline_local N dt tme HN Hd Ht) as (C & B & L & I).
  clearbody st. destruct st as [s0 b0]. 
  assert (E : snd (splineCall ext cubic N dt tme (s0, b0)) a b l =
     let s := fst (splineCall ext cubic N dt tme (s0, b0)) in let t := tme - IZR (Rtrunc (tme / dt / IZR N) * N) * dt - dt * IZR (s_cur s) in
     s_alphas s 0%Z a b (l - 1)%Z * t ^ 3 + s_alphas s 1%Z a b (l - 1)%Z * t ^ 2 + s_alphas s 2%Z a b (l - 1)%Z * t + s_alphas s 3%Z a b (l - 1)%Z).
  { unfold splineCall. cbn [fst snd].
    replace ((0 <=? a) && (a <? fst ext - 1) && (0 <=? b) && (b <? snd ext - 1) && (1 <=? l) && (l <=? 3))%Z%bool with true by (symmetry; rewrite !Bool.andb_true_iff; lia). reflexivity. }
  rewrite E. cbv zeta. rewrite !C2, C1. rewrite <- C, L. rewrite (Hu (Rfloor (tme / dt)) (tme - dt * IZR (Rfloor (tme / dt))) tme Ht); [ | ring | exact I].
  rewrite <- C. reflexivity.
Qed.
(** the signal is periodic *)
Theorem C57_periodic : forall N dt coef u, (0 < N)%Z -> 0 < dt -> isPeriodicSpline N dt coef u -> forall t, 0 <= t -> u (t + IZR N * dt) = u t.
Proof.
  intros N dt coef u HN Hd Hu t Ht. destruct (spline_local N dt t HN Hd Ht) as (_ & _ & _ & I). set (m := Rfloor (t / dt)) in *. set (s := t - dt * IZR m) in *.
  assert (HN' : 0 < IZR N) by (apply IZR_lt in HN; exact HN). assert (0 < IZR N * dt) by (apply Rmult_lt_0_compat; lra).
  rewrite (Hu m s t Ht); [ | unfold s; ring | exact I]. rewrite (Hu (m + 1 * N)%Z s (t + IZR N * dt)); [ | lra | rewrite plus_IZR, mult_IZR; unfold s; ring | exact I].
  rewrite Z.mod_add by lia. reflexivity.
Qed.
(** every face entry in front of an interior cell is among those set *)
Theorem C57_interior_entries : forall d ng n a b, (1 <= ng)%Z -> isBface n -> onBface d ng n a b ->
  (ng <= a < fst (sliceExt d ng n) - ng)%Z -> (ng <= b < snd (sliceExt d ng n) - ng)%Z ->
  (0 <= a < fst (sliceExt d ng n) - 1)%Z /\ (0 <= b < snd (sliceExt d ng n) - 1)%Z.
Proof. intros. lia. Qed.
(** such signals exist, and a run through several intervals and back *)
Example C57_nonvacuous : exists u, isPeriodicSpline 3 (1/2) (fun k m => IZR (k + m)) u.
Proof.
  exists (fun t => let m := Rfloor (t / (1/2)) in let s := t - 1/2 * IZR m in
     IZR (0 + m mod 3) * s ^ 3 + IZR (1 + m mod 3) * s ^ 2 + IZR (2 + m mod 3) * s + IZR (3 + m mod 3)).
  intros m s t Ht E I. cbv zeta. assert (F : Rfloor (t / (1/2)) = m) by (unfold Rfloor; symmetry; apply Int_part_spec; lra). rewrite F.
  replace (t - 1 / 2 * IZR m) with s by lra. reflexivity.
Qed.

(** the hypotheses of C50 - C54 are met by the block of C93_nonvacuous under every condition (C50_writes_only_the_halo gives blk' for every kind);
    at the mass-flux inlet of that block densities are positive, so C53 applies *)
Example C53_nonvacuous : exists blk', bcEuler constantMassFluxSubsonicInlet (cpgPrims exTh) bcDims 2 6 1 bcFace nrmI nrmJ nrmK bcBlk = Some blk' /\ onBface bcDims 2 1 2 2 /\
  keepsPrimitives 6 (cpgPrims exTh) /\ (forall c, coherentCell (cpgPrims exTh c)).
Proof.
  destruct (C50_writes_only_the_halo (cpgPrims exTh) bcDims 2 6 1 bcFace nrmI nrmJ nrmK ltac:(unfold isBface; lia) (or_intror eq_refl) ltac:(cbn; lia) constantMassFluxSubsonicInlet bcBlk) as (blk' & E & _).
  exists blk'. split; [exact E | ]. split; [unfold onBface; cbn; lia | ]. split; [exact (cpg_keeps exTh) | exact (cpg_coherent exTh)].
Qed.
Print Assumptions C56_face1_partial.
Print Assumptions C57_signal.
Print Assumptions C55_halo_state.
Print Assumptions C94_scalar_gradients.
