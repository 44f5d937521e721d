(** C145: what crosses a wall by diffusion.  The wall condition in its three parts (euler, preDqDxyz, postDqDxyz) followed by the diffusive kernels. *)
From Coq Require Import Reals ZArith List Bool Lra Lia Psatz.
From Verif Require Import M_Topology M_Halo M_Grid M_Metrics S_Metrics S_Sum M_Flux M_FluxKernels S_Thermo M_Thermo M_Diff S_Diff M_Rhs M_Bc S_Bc S_WallVisc L_Vec L_Sum L_Thermo L_Bc L_Diff P_Bc P_Wall P_Metrics S_Grid L_Grid3 L_Grid4 P_Grid.
Import ListNotations.
Open Scope R_scope.
Local Notation opp := S_FluxKernels.opp.

(** ** the kernels when the scalar gradients at the face vanish *)
Lemma faceGrad_zero ne gr s : (5 <= ne)%Z -> (forall l, (5 <= l < ne)%Z -> gr l = vzero) -> forall n, (0 <= n < ne - 4)%Z -> faceGrad (ne - 4) gr s n = 0.
Proof.
  intros Hne H n Hn. unfold faceGrad, lastNeg. destruct (Z.eqb_spec n (ne - 4 - 1)).
  - rewrite sumZ_zero; [ring|]. intros m Hm. rewrite H by lia. unfold dot3, vzero. rewrite vx_mk, vy_mk, vz_mk. ring.
  - rewrite H by lia. unfold dot3, vzero. rewrite vx_mk, vy_mk, vz_mk. ring.
Qed.
Lemma species_zero ne gr f L Rc : (5 <= ne)%Z -> (forall l, (5 <= l < ne)%Z -> gr l = vzero) -> forall n, (0 <= n < ne - 4)%Z -> speciesFlux (ne - 4) gr f L Rc n = 0.
Proof.
  intros Hne H n Hn. unfold speciesFlux, fick. rewrite (faceGrad_zero ne gr (fs f) Hne H n Hn).
  unfold correction. rewrite sumZ_zero; [ring|]. intros m Hm. rewrite (faceGrad_zero ne gr (fs f) Hne H m ltac:(lia)). ring.
Qed.
Lemma core_insulated gr lc ne f L Rc : (5 <= ne)%Z -> (forall l, (5 <= l < ne)%Z -> gr l = vzero) ->
  (forall l, (l = 0 \/ 5 <= l < ne)%Z -> diffCore gr lc ne f L Rc l = 0) /\
  diffCore gr lc ne f L Rc 4%Z = dot3 (faceVelocity L Rc) (traction (mean (fun c => dt c 0%Z) L Rc) gr (fs f)) + fourier (mean (fun c => dt c 1%Z) L Rc) gr (fs f).
Proof.
  intros Hne H. pose proof (species_zero ne gr f L Rc Hne H) as Z0. split.
  - intros l [-> | Hl]; [apply core_mass|]. replace l with (5 + (l - 5))%Z by lia. rewrite core_species by lia. apply Z0. lia.
  - rewrite core_energy by lia. rewrite (sumZ_zero 0 (ne - 5)) by (intros m Hm; rewrite Z0 by lia; ring). rewrite Z0 by lia.
    replace (correction (ne - 4) (faceD L Rc) (faceGrad (ne - 4) gr (fs f))) with 0; [ring|].
    symmetry. unfold correction. apply sumZ_zero. intros m Hm. rewrite (faceGrad_zero ne gr (fs f) Hne H m ltac:(lia)). ring.
Qed.
(** ** one scalar or velocity component seen from the two sides of a wall *)
Definition midway (f : dface) (L Rc : dcell) : Prop := vadd (dX L) (dX Rc) = vscale 2 (fx f).
Lemma mid_sides f L Rc : midway f L Rc -> vx (fx f) - vx (dX L) = - (vx (fx f) - vx (dX Rc)) /\ vy (fx f) - vy (dX L) = - (vy (fx f) - vy (dX Rc)) /\ vz (fx f) - vz (dX L) = - (vz (fx f) - vz (dX Rc)).
Proof.
  unfold midway. intros M. assert (A := f_equal vx M). assert (B := f_equal vy M). assert (C := f_equal vz M).
  rewrite vx_add, vx_scale in A. rewrite vy_add, vy_scale in B. rewrite vz_add, vz_scale in C. split; [|split]; lra.
Qed.
Lemma plain_mirrored f L Rc l : dG L l = opp (dG Rc l) -> plainGrad f L Rc l = vzero.
Proof. intros E. unfold plainGrad, avgV, avg, vzero. rewrite E. unfold S_FluxKernels.opp. autorewrite with vec. f_equal; [f_equal|]; ring. Qed.
Lemma plain_same f L Rc l g : dG L l = g -> dG Rc l = g -> plainGrad f L Rc l = g.
Proof. intros E1 E2. unfold plainGrad, avgV, avg. rewrite E1, E2. destruct g as [[x y] z]. rewrite vx_mk, vy_mk, vz_mk. f_equal; [f_equal|]; field. Qed.
Lemma jump_mirrored f L Rc l : midway f L Rc -> dG L l = opp (dG Rc l) -> extrapolate f Rc l - extrapolate f L l = dq Rc l - dq L l.
Proof.
  intros M E. destruct (mid_sides f L Rc M) as (A & B & C). unfold extrapolate. rewrite A, B, C, E. unfold S_FluxKernels.opp. autorewrite with vec. ring.
Qed.
Lemma damped_mirrored f L Rc l : midway f L Rc -> dG L l = opp (dG Rc l) -> dampedGrad f L Rc l = vscale ((dq Rc l - dq L l) / magEdotN f L Rc) (fnn f).
Proof.
  intros M E. unfold dampedGrad. cbv zeta. rewrite (jump_mirrored f L Rc l M E). rewrite E. unfold S_FluxKernels.opp. vext; unfold avg, Rdiv; autorewrite with vec; ring.
Qed.
Lemma opp_invol v : opp (opp v) = v.
Proof. unfold S_FluxKernels.opp. vext; ring. Qed.
(** ** the block's face arrays *)
Definition bfaceCentre (d : dims) (ng n : Z) (X : nodes) (a b : Z) : vec :=
  let s := (if Z.odd n then ng else nodesAlong d n + ng - 1)%Z in
  if (n <=? 2)%Z then iFaceCentre X s a b else if (n <=? 4)%Z then jFaceCentre X a s b else kFaceCentre X a b s.
Definition bdface (d : dims) (ng n : Z) (X : nodes) (a b : Z) : dface := mkDF (bfaceArea d ng n X a b) (faceNormal (bfaceArea d ng n X a b)) (bfaceCentre d ng n X a b).
Lemma bfaceFlux_diff d ng n f X v G a b l : isBface n ->
  let h := cellOf (dcellAt X v G) (layerCell d ng n 0 a b) in let c := cellOf (dcellAt X v G) (layerCell d ng n 1 a b) in
  bfaceFlux d ng n (diffBlockFlux f X v G) a b l = if Z.odd n then f (bdface d ng n X a b) h c l else f (bdface d ng n X a b) c h l.
Proof.
  intros H h c. unfold h, c, bfaceFlux, diffBlockFlux, bdface, bfaceArea, bfaceCentre, layerCell, layerIndex, nodesAlong, cellOf.
  destruct (face_cases n H) as [->|[->|[->|[->|[->| ->]]]]]; cbn [Z.odd Z.leb Z.compare Pos.compare Pos.compare_cont iF jF kF]; unfold dfaceI, dfaceJ, dfaceK;
    repeat (f_equal; try lia).
Qed.
Lemma centre_midway d ng n X a b v G : isBface n -> mirroredNodes d ng n X a b ->
  vadd (dX (cellOf (dcellAt X v G) (layerCell d ng n 0 a b))) (dX (cellOf (dcellAt X v G) (layerCell d ng n 1 a b))) = vscale 2 (bfaceCentre d ng n X a b).
Proof.
  intros H M. assert (M1 := fun u v U V => f_equal vx (M u v U V)). assert (M2 := fun u v U V => f_equal vy (M u v U V)). assert (M3 := fun u v U V => f_equal vz (M u v U V)). clear M.
  assert (Q : forall P : Z -> Z -> Prop, (forall u v, In u [a; a + 1]%Z -> In v [b; b + 1]%Z -> P u v) -> P a b /\ P a (b + 1)%Z /\ P (a + 1)%Z b /\ P (a + 1)%Z (b + 1)%Z).
  { intros P HP. split; [|split; [|split]]; apply HP; cbn [In]; auto. }
  apply Q in M1, M2, M3. destruct M1 as (A1 & A2 & A3 & A4), M2 as (B1 & B2 & B3 & B4), M3 as (C1 & C2 & C3 & C4).
  unfold nodeLayer, layerCell, layerIndex, bfaceCentre, nodesAlong in *.
  destruct (face_cases n H) as [->|[->|[->|[->|[->| ->]]]]]; cbn [Z.odd Z.leb Z.compare Pos.compare Pos.compare_cont] in *; cbn [cellOf dcellAt dX] in *; unfold cellCentre, iFaceCentre, jFaceCentre, kFaceCentre;
  autorewrite with vec in *;
  repeat match goal with
  | |- context [(ng - 1 + 0 + 1)%Z] => replace (ng - 1 + 0 + 1)%Z with ng by lia
  | |- context [(ng - 1 + 1 + 1)%Z] => replace (ng - 1 + 1 + 1)%Z with (ng + 1)%Z by lia
  | |- context [(ng - 1 + 0)%Z] => replace (ng - 1 + 0)%Z with (ng + -1)%Z by lia
  | |- context [(ng - 1 + 1)%Z] => replace (ng - 1 + 1)%Z with ng by lia
  | H : context [(ng + 0)%Z] |- _ => replace (ng + 0)%Z with ng in H by lia
  | |- context [(?N + ng - 1 - 0 + 1)%Z] => replace (N + ng - 1 - 0 + 1)%Z with (N + ng - 1 - -1)%Z by lia
  | |- context [(?N + ng - 1 - 1 + 1)%Z] => replace (N + ng - 1 - 1 + 1)%Z with (N + ng - 1)%Z by lia
  | |- context [(?N + ng - 1 - 0)%Z] => replace (N + ng - 1 - 0)%Z with (N + ng - 1)%Z by lia
  | H : context [(?N + ng - 1 - 0)%Z] |- _ => replace (N + ng - 1 - 0)%Z with (N + ng - 1)%Z in H by lia
  end; vext; lra.
Qed.
(** halo nodes made by the code are mirrored *)
Theorem C145_generated_halo_mirrored : forall d ng n x a b, isBface n -> (1 <= ng)%Z -> (forall ax, 2 <= size d ax)%Z -> (forall ax, ng < size d ax)%Z ->
  innerFace d ng n a b -> mirroredNodes d ng n (withHalo d ng x) a b.
Proof.
  intros d ng n x a b Hn G S2 Sg I u v U V.
  assert (Big : (ng < ni d /\ ng < nj d /\ ng < nk d)%Z) by (split; [exact (Sg AI)|split; [exact (Sg AJ)|exact (Sg AK)]]).
  assert (B2 : (2 <= ni d /\ 2 <= nj d /\ 2 <= nk d)%Z) by (split; [exact (S2 AI)|split; [exact (S2 AJ)|exact (S2 AK)]]).
  assert (In_ : forall y i j k, interiorNode d ng i j k -> generateHalo d ng y i j k = y i j k) by (intros; apply C18_interior_untouched; auto).
  assert (Rf : forall (y : array3 R), cellOf (generateHalo d ng y) (nodeLayer d ng n (-1) u v) =
      2 * cellOf (generateHalo d ng y) (nodeLayer d ng n 0 u v) - cellOf (generateHalo d ng y) (nodeLayer d ng n 1 u v)).
  { intros y. cbn [In] in U, V. unfold innerFace, nodeLayer, nodesAlong, cellOf in *.
    set (ax := if (n <=? 2)%Z then AI else if (n <=? 4)%Z then AJ else AK).
    pose proof (fun p => C18_reflection d ng y ax p G S2 Sg) as C. unfold ax in C. clear ax.
    destruct (face_cases n Hn) as [->|[->|[->|[->|[->| ->]]]]]; cbn [Z.odd Z.leb Z.compare Pos.compare Pos.compare_cont] in *;
      match goal with |- generateHalo d ng y ?i ?j ?k = _ => specialize (C (i, j, k)); change (ap (generateHalo d ng y) (i, j, k)) with (generateHalo d ng y i j k) in C end;
      (rewrite C; [ | intros []; unfold ga, total; cbn [getA fst snd size]; lia
                    | intros []; intros Ne; try congruence; unfold ga; cbn [getA fst snd size]; lia
                    | unfold ga; cbn [getA fst snd size]; lia ]);
      clear C; unfold ga, ap; cbn [getA fst snd sa size];
      rewrite !In_ by (unfold interiorNode; lia);
      match goal with |- context [(?p <? ng)%Z] => destruct (Z.ltb_spec p ng); try lia end;
      (f_equal; [f_equal|]; f_equal; lia). }
  pose proof (Rf (fun i j k => vx (x i j k))) as R1. pose proof (Rf (fun i j k => vy (x i j k))) as R2. pose proof (Rf (fun i j k => vz (x i j k))) as R3.
  revert R1 R2 R3. unfold cellOf. destruct (nodeLayer d ng n (-1) u v) as [[i j] k], (nodeLayer d ng n 0 u v) as [[i0 j0] k0], (nodeLayer d ng n 1 u v) as [[i1 j1] k1].
  intros R1 R2 R3. unfold withHalo. vext; assumption.
Qed.
(** ** the wall's halo cell and its gradients *)
Section WallCell.
Variables (eos : cell -> cell) (d : dims) (ng ne n : Z) (fd : faceData) (X : nodes) (k : bcKind) (blk blk1 blk2 : field) (G G' : gradField).
Hypothesis Hn : isBface n.
Hypothesis Hg : (ng = 1 \/ ng = 2)%Z.
Hypothesis D : (2 <= ni d /\ 2 <= nj d /\ 2 <= nk d)%Z.
Hypothesis He : keepsPrimitives ne eos.
Hypothesis Hne : (5 <= ne)%Z.
Hypothesis Wk : isWall k.
Let nI i j l := faceNormal (iArea X i j l).
Let nJ i j l := faceNormal (jArea X i j l).
Let nK i j l := faceNormal (kArea X i j l).
Hypothesis Ran1 : bcEuler k eos d ng ne n fd nI nJ nK blk = Some blk1.
Hypothesis Ran2 : bcPre k d ng n fd blk1 = Some blk2.
Hypothesis Ran3 : bcPost k d ng ne n fd G = Some G'.
Variables a b : Z.
Hypothesis Ob : onBface d ng n a b.
Let N := faceNormal (bfaceArea d ng n X a b).
Hypothesis Y01 : forall l, (5 <= l < ne)%Z -> 0 <= cq (cellOf blk (layerCell d ng n 1 a b)) l <= 1.
Let h := cellOf blk2 (layerCell d ng n 0 a b).
Let c := cellOf blk2 (layerCell d ng n 1 a b).
Lemma wk_not_null : k <> nullBc.
Proof. clear - Wk. intros E. rewrite E in Wk. unfold isWall in Wk. cbn [In] in Wk. decompose [or] Wk; try discriminate; contradiction. Qed.
Lemma wk_not_stag : k <> stagnationSubsonicInlet.
Proof. clear - Wk. intros E. rewrite E in Wk. unfold isWall in Wk. cbn [In] in Wk. decompose [or] Wk; try discriminate; contradiction. Qed.
Lemma layer1_not_behind : let '(i, j, l) := layerCell d ng n 1 a b in ~ behind d ng n i j l.
Proof.
  clear - Hn.
  generalize (cellAt_layer d ng n 1 a b Hn). intros Q. destruct (layerCell d ng n 1 a b) as [[i j] l] eqn:Lc.
  intros (g' & a' & b' & G0 & O' & Q'). rewrite <- Lc in Q'. rewrite <- !cellAt_layer in Q' by auto.
  generalize (faceCoord_cellAt n (layerIndex d ng n 1) a b Hn) (faceCoord_cellAt n (layerIndex d ng n (- g')) a' b' Hn).
  rewrite Q'. destruct (cellAt n (layerIndex d ng n (- g')) a' b') as [[i' j'] l']. intros -> Y. injection Y as Y _ _. apply layer_inj in Y. lia.
Qed.
Lemma interior_kept : c = cellOf blk (layerCell d ng n 1 a b) /\ cellOf blk1 (layerCell d ng n 1 a b) = cellOf blk (layerCell d ng n 1 a b).
Proof.
  assert (K1 : cellOf blk1 (layerCell d ng n 1 a b) = cellOf blk (layerCell d ng n 1 a b)).
  { destruct (C50_writes_only_the_halo eos d ng ne n fd nI nJ nK Hn Hg D k blk) as (b2 & E2 & W). rewrite E2 in Ran1. injection Ran1 as <-.
    pose proof layer1_not_behind as NB. destruct (layerCell d ng n 1 a b) as [[i j] l]. cbn [cellOf]. apply W, NB. }
  split; [|exact K1]. rewrite <- K1. unfold c.
  destruct (pre_spec d ng n fd Hn Hg k blk1 wk_not_null) as (b2 & E2 & _ & W). rewrite E2 in Ran2. injection Ran2 as <-.
  pose proof layer1_not_behind as NB. destruct (layerCell d ng n 1 a b) as [[i j] l]. cbn [cellOf]. apply W, NB.
Qed.
Lemma halo_euler l : (0 <= l < ne)%Z -> cq (cellOf blk1 (layerCell d ng n 0 a b)) l =
   wallEuler (match k with isoTNoSlipWall | isoTSlipWall | isoTMovingWall => true | _ => false end) ne N (f_qBc fd a b) (cq c) (cq (cellOf blk (layerCell d ng n 0 a b))) l.
Proof.
  intros Hl. pose proof (euler_at eos d ng ne n fd nI nJ nK Hn Hg D k blk blk1 wk_not_null Ran1 0%Z a b ltac:(destruct Hg; lia) Ob) as E. change (- 0)%Z with 0%Z in E.
  rewrite E. rewrite normal_spec by (auto using wk_not_stag). replace (bfaceNormal d ng n nI nJ nK a b) with N by (symmetry; exact (N_eq d ng n X a b)). rewrite <- (proj1 interior_kept).
  assert (Yc : forall l, (5 <= l < ne)%Z -> 0 <= cq c l <= 1) by (rewrite (proj1 interior_kept); exact Y01).
  unfold isWall in Wk. cbn [In] in Wk.
  destruct k; first [ exfalso; decompose [or] Wk; first [discriminate | contradiction] | cbn [finish eulerCell];
    destruct (Z_lt_dec l 5); [ rewrite (proj1 He) by lia; reflexivity | rewrite (proj2 He); [reflexivity | lia | ] ];
    unfold wallEuler, mirrorU, withVel, setCq; cbn [cq]; rewrite inB by lia;
    destruct (Z.eqb_spec l 1); [lia|]; destruct (Z.eqb_spec l 2); [lia|]; destruct (Z.eqb_spec l 3); [lia|]; destruct (Z.eqb_spec l 4); [lia|]; cbn [andb]; apply Yc; lia ].
Qed.
Lemma halo_pre : h = preCell k (f_qBc fd a b) c (cellOf blk1 (layerCell d ng n 0 a b)).
Proof.
  destruct (pre_spec d ng n fd Hn Hg k blk1 wk_not_null) as (b2 & E2 & P & _). assert (Eb : b2 = blk2) by congruence. rewrite Eb in P.
  pose proof (P 0%Z a b ltac:(destruct Hg; lia) Ob) as Q. change (- 0)%Z with 0%Z in Q. unfold h. rewrite Q. rewrite (proj2 interior_kept), (proj1 interior_kept). reflexivity.
Qed.
(** temperature and species of the halo cell *)
Lemma halo_species l : (5 <= l < ne)%Z -> cq h l = cq c l.
Proof.
  intros Hl. assert (E : cq h l = cq (cellOf blk1 (layerCell d ng n 0 a b)) l).
  { rewrite halo_pre. unfold preCell. destruct k; first [reflexivity | unfold setCq, withVel; cbn [cq];
    destruct (Z.eqb_spec l 1); [lia|]; destruct (Z.eqb_spec l 2); [lia|]; destruct (Z.eqb_spec l 3); [lia|]; reflexivity]. }
  rewrite E, halo_euler by lia. unfold wallEuler, mirrorU, withVel. rewrite inB by lia.
  destruct (Z.eqb_spec l 1); [lia|]; destruct (Z.eqb_spec l 2); [lia|]; destruct (Z.eqb_spec l 3); [lia|]; destruct (Z.eqb_spec l 4); [lia|]; reflexivity.
Qed.
Lemma halo_temperature : insulating k -> cq h 4%Z = cq c 4%Z.
Proof.
  intros Ik. assert (E : cq h 4%Z = cq (cellOf blk1 (layerCell d ng n 0 a b)) 4%Z) by (rewrite halo_pre; unfold preCell; destruct k; reflexivity).
  rewrite E, halo_euler by lia. unfold wallEuler, mirrorU, withVel. rewrite inB by lia. cbn [Z.eqb Pos.eqb]. destruct Ik as [-> | [-> | ->]]; reflexivity.
Qed.
Lemma halo_sticks : sticking k -> meanv (velocity h) (velocity c) = wallVelocity k fd a b.
Proof.
  intros Sk. rewrite halo_pre. unfold velocity, meanv, wallVelocity.
  destruct Sk as [-> | [-> | [-> | ->]]]; unfold preCell, setCq, withVel; cbn [cq Z.eqb Pos.eqb]; rewrite ?vx_mk, ?vy_mk, ?vz_mk; repeat apply (f_equal2 pair); field.
Qed.
Lemma halo_slips : slipping k -> velocity h = vsub (velocity c) (vscale (2 * dotv (velocity c) N) N).
Proof.
  intros Sk. assert (E : h = cellOf blk1 (layerCell d ng n 0 a b)) by (rewrite halo_pre; destruct Sk as [-> | ->]; reflexivity).
  unfold velocity at 1. rewrite E, !halo_euler by lia. unfold wallEuler, mirrorU, withVel. cbn [Z.eqb Pos.eqb]. unfold dotv, velocity. vext; ring.
Qed.
(** the gradients *)
Lemma grad_interior l : cellOf G' (layerCell d ng n 1 a b) l = cellOf G (layerCell d ng n 1 a b) l.
Proof.
  unfold bcPost in Ran3. rewrite idxs in Ran3 by auto.
  assert (E : forall Gp, Some Gp = Some G' -> Gp = G') by (intros; congruence).
  generalize (faceCoord_cellAt n (layerIndex d ng n 1) a b Hn). rewrite cellAt_layer by auto. destruct (layerCell d ng n 1 a b) as [[i j] kk] eqn:Lc. cbn [cellOf]. intros Fc.
  assert (Q : (layerIndex d ng n 1 =? layerIndex d ng n 0)%Z = false) by (apply Z.eqb_neq; intros H; apply layer_inj in H; lia).
  pose proof wk_not_null as NN. destruct k; try (elim NN; reflexivity); apply E in Ran3; rewrite <- Ran3; cbv beta; rewrite Fc; destruct (sliceExt d ng n) as [e0 e1]; rewrite Q; reflexivity.
Qed.
Lemma grad_halo l : (0 <= l < ne)%Z -> cellOf G' (layerCell d ng n 0 a b) l = postVal k fd l (cellOf G (layerCell d ng n 1 a b) l) (cellOf G (layerCell d ng n 0 a b) l).
Proof.
  intros Hl. unfold bcPost in Ran3. rewrite idxs in Ran3 by auto.
  assert (E : forall Gp, Some Gp = Some G' -> Gp = G') by (intros; congruence).
  rewrite <- (slice_layer G d ng n 1 a b Hn).
  generalize (faceCoord_cellAt n (layerIndex d ng n 0) a b Hn). rewrite cellAt_layer by auto. destruct (layerCell d ng n 0 a b) as [[i j] kk] eqn:Lc. cbn [cellOf]. intros Fc.
  pose proof (proj2 (ext_onBface d ng n a b Hn) Ob) as Ex. destruct (sliceExt d ng n) as [e0 e1] eqn:Se.
  assert (B : forall z, ((z =? z) && (0 <=? a) && (a <? e0) && (0 <=? b) && (b <? e1) && (0 <=? l) && (l <? ne))%Z%bool = true).
  { intros z. rewrite !andb_true_iff, Z.eqb_eq, !Z.leb_le, !Z.ltb_lt. lia. }
  pose proof wk_not_null as NN. destruct k; try (elim NN; reflexivity); apply E in Ran3; rewrite <- Ran3; cbv beta; rewrite Fc, B; reflexivity.
Qed.
(** ** what the kernels do there *)
Variable qt : Z -> Z -> Z -> Z -> R.
Let V := seen blk2 qt.
Let face := bdface d ng n X a b.
Let dh_ := cellOf (dcellAt X V G') (layerCell d ng n 0 a b).
Let dc_ := cellOf (dcellAt X V G') (layerCell d ng n 1 a b).
Let g1 := cellOf G (layerCell d ng n 1 a b).
Let mu := (cellOf qt (layerCell d ng n 0 a b) 0%Z + cellOf qt (layerCell d ng n 1 a b) 0%Z) / 2.
Let kappa := (cellOf qt (layerCell d ng n 0 a b) 1%Z + cellOf qt (layerCell d ng n 1 a b) 1%Z) / 2.
Let A := bfaceArea d ng n X a b.
Let flux (f : dface -> dcell -> dcell -> Z -> R) l := bfaceFlux d ng n (diffBlockFlux f X V G') a b l.
Definition pairs (L Rc : dcell) : Prop := (L = dh_ /\ Rc = dc_) \/ (L = dc_ /\ Rc = dh_).
Lemma flux_pair f : exists L Rc, pairs L Rc /\ (forall l, flux f l = f face L Rc l).
Proof.
  pose proof (fun l => bfaceFlux_diff d ng n f X V G' a b l Hn) as E. cbv zeta in E. fold dh_ dc_ face in E. unfold flux. destruct (Z.odd n).
  - exists dh_, dc_. split; [left; auto | exact E].
  - exists dc_, dh_. split; [right; auto | exact E].
Qed.
Lemma dq_h : dq dh_ = cq h. Proof. unfold dh_, h, cellOf. destruct (layerCell d ng n 0 a b) as [[i j] l]. reflexivity. Qed.
Lemma dq_c : dq dc_ = cq c. Proof. unfold dc_, c, cellOf. destruct (layerCell d ng n 1 a b) as [[i j] l]. reflexivity. Qed.
Lemma dG_c l : dG dc_ l = g1 l.
Proof. unfold dc_, g1. rewrite <- grad_interior. unfold cellOf. destruct (layerCell d ng n 1 a b) as [[i j] kk]. reflexivity. Qed.
Lemma dG_h l : (0 <= l < ne)%Z -> dG dh_ l = postVal k fd l (g1 l) (cellOf G (layerCell d ng n 0 a b) l).
Proof. intros Hl. unfold dh_, g1. rewrite <- grad_halo by exact Hl. unfold cellOf. destruct (layerCell d ng n 0 a b) as [[i j] kk]. reflexivity. Qed.
Lemma neg_opp v : (- vx v, - vy v, - vz v) = opp v. Proof. reflexivity. Qed.
Lemma species_mirrored l : (5 <= l < ne)%Z -> dG dh_ l = opp (dG dc_ l).
Proof.
  intros Hl. rewrite dG_h, dG_c by lia. unfold postVal. replace ((1 <=? l) && (l <=? 3))%Z%bool with false by (symmetry; apply andb_false_iff; right; apply Z.leb_gt; lia).
  replace ((1 <=? l) && (l <=? 4))%Z%bool with false by (symmetry; apply andb_false_iff; right; apply Z.leb_gt; lia). replace (l =? 4)%Z with false by (symmetry; apply Z.eqb_neq; lia).
  unfold isWall in Wk. cbn [In] in Wk. destruct k; first [ reflexivity | exfalso; decompose [or] Wk; first [discriminate | contradiction] ].
Qed.
Lemma heat_mirrored : insulating k -> dG dh_ 4%Z = opp (dG dc_ 4%Z).
Proof. intros Ik. rewrite dG_h, dG_c by lia. destruct Ik as [-> | [-> | ->]]; reflexivity. Qed.
Lemma heat_same : sticking k -> ~ insulating k -> dG dh_ 4%Z = dG dc_ 4%Z.
Proof. intros Sk NI. rewrite dG_h, dG_c by lia. destruct Sk as [E | [E | [E | E]]]; rewrite E in *; try (elim NI; unfold insulating; auto; fail); reflexivity. Qed.
Lemma vel_same l : sticking k -> (1 <= l <= 3)%Z -> dG dh_ l = dG dc_ l.
Proof. intros Sk Hl. rewrite dG_h, dG_c by lia. assert (C : (l = 1 \/ l = 2 \/ l = 3)%Z) by lia. destruct C as [-> | [-> | ->]]; destruct Sk as [-> | [-> | [-> | ->]]]; reflexivity. Qed.
Lemma vel_mirrored l : slipping k -> (1 <= l <= 3)%Z -> dG dh_ l = opp (dG dc_ l).
Proof. intros Sk Hl. rewrite dG_h, dG_c by lia. assert (C : (l = 1 \/ l = 2 \/ l = 3)%Z) by lia. destruct C as [-> | [-> | ->]]; destruct Sk as [-> | ->]; reflexivity. Qed.
Lemma pairs_mirrored l L Rc : pairs L Rc -> dG dh_ l = opp (dG dc_ l) -> dG L l = opp (dG Rc l).
Proof. intros [[-> ->] | [-> ->]] E; [exact E | rewrite E, opp_invol; reflexivity]. Qed.
Lemma pairs_mid L Rc : mirroredNodes d ng n X a b -> pairs L Rc -> midway face L Rc.
Proof.
  intros M P. pose proof (centre_midway d ng n X a b V G' Hn M) as C. fold dh_ dc_ in C. unfold midway, face. cbn [bdface fx]. destruct P as [[-> ->] | [-> ->]]; rewrite <- C; [reflexivity|].
  vext; ring.
Qed.
Lemma mean_pairs g L Rc : pairs L Rc -> mean g L Rc = (g dh_ + g dc_) / 2.
Proof. intros [[-> ->] | [-> ->]]; unfold mean; [reflexivity | f_equal; ring]. Qed.
Lemma mean_mu L Rc : pairs L Rc -> mean (fun c => dt c 0%Z) L Rc = mu.
Proof. intros P. rewrite mean_pairs by exact P. clear P. unfold mu, dh_, dc_, cellOf. destruct (layerCell d ng n 0 a b) as [[i j] l], (layerCell d ng n 1 a b) as [[i1 j1] l1]. reflexivity. Qed.
Lemma mean_kappa L Rc : pairs L Rc -> mean (fun c => dt c 1%Z) L Rc = kappa.
Proof. intros P. rewrite mean_pairs by exact P. clear P. unfold kappa, dh_, dc_, cellOf. destruct (layerCell d ng n 0 a b) as [[i j] l], (layerCell d ng n 1 a b) as [[i1 j1] l1]. reflexivity. Qed.
Lemma face_vel L Rc : pairs L Rc -> faceVelocity L Rc = meanv (velocity h) (velocity c).
Proof. intros P. unfold faceVelocity. rewrite !mean_pairs by exact P. rewrite dq_h, dq_c. reflexivity. Qed.
Lemma species_grad_zero L Rc gr : pairs L Rc -> (gr = plainGrad face L Rc \/ (gr = dampedGrad face L Rc /\ mirroredNodes d ng n X a b)) -> forall l, (5 <= l < ne)%Z -> gr l = vzero.
Proof.
  intros P H l Hl. pose proof (pairs_mirrored l L Rc P (species_mirrored l Hl)) as E. destruct H as [-> | [-> M]]; [now apply plain_mirrored|].
  rewrite damped_mirrored by (auto using pairs_mid). replace (dq Rc l - dq L l) with 0; [vext; unfold Rdiv; ring|].
  pose proof (halo_species l Hl) as Q. rewrite <- dq_h, <- dq_c in Q. destruct P as [[-> ->] | [-> ->]]; rewrite Q; ring.
Qed.
Lemma heat_grad_zero L Rc gr : insulating k -> pairs L Rc -> (gr = plainGrad face L Rc \/ (gr = dampedGrad face L Rc /\ mirroredNodes d ng n X a b)) -> gr 4%Z = vzero.
Proof.
  intros Ik P H. pose proof (pairs_mirrored 4 L Rc P (heat_mirrored Ik)) as E. destruct H as [-> | [-> M]]; [now apply plain_mirrored|].
  rewrite damped_mirrored by (auto using pairs_mid). replace (dq Rc 4%Z - dq L 4%Z) with 0; [vext; unfold Rdiv; ring|].
  pose proof (halo_temperature Ik) as Q. rewrite <- dq_h, <- dq_c in Q. destruct P as [[-> ->] | [-> ->]]; rewrite Q; ring.
Qed.
(** a kernel of the code with the geometry it needs *)
Definition wallKernel (f : dface -> dcell -> dcell -> Z -> R) : Prop := f = diffusiveFlux ne \/ (f = alphaDampingFlux ne /\ mirroredNodes d ng n X a b).
Lemma kernel_core f : wallKernel f -> exists L Rc gr lc, pairs L Rc /\ (forall l, flux f l = diffCore gr lc ne face L Rc l) /\
  (gr = plainGrad face L Rc \/ (gr = dampedGrad face L Rc /\ mirroredNodes d ng n X a b)).
Proof.
  intros Hf. destruct (flux_pair f) as (L & Rc & P & E). destruct Hf as [-> | [-> M]].
  - exists L, Rc, (plainGrad face L Rc), (fun y => Rmax y 0). split; [exact P|]. split; [exact E | left; reflexivity].
  - exists L, Rc, (dampedGrad face L Rc), (fun y => y). split; [exact P|]. split; [exact E | right; auto].
Qed.
(** no mass and no species through any wall, and the energy flux is heat conduction and the work of the friction on the moving wall *)
Theorem C145_no_mass_no_species : forall f, wallKernel f -> forall l, (l = 0 \/ 5 <= l < ne)%Z -> flux f l = 0.
Proof.
  intros f Hf l Hl. destruct (kernel_core f Hf) as (L & Rc & gr & lc & P & E & Gr). rewrite E.
  apply (core_insulated gr lc ne face L Rc Hne); [|exact Hl]. intros m Hm. exact (species_grad_zero L Rc gr P Gr m Hm).
Qed.
Lemma core_mom gr lc L Rc : momentum (diffCore gr lc ne face L Rc) = opp (traction (mean (fun c => dt c 0%Z) L Rc) gr (fs face)).
Proof. unfold momentum. rewrite !core_momentum by auto. reflexivity. Qed.
Lemma dot_opp u v : dot3 u (opp v) = - dot3 u v.
Proof. unfold dot3, S_FluxKernels.opp. autorewrite with vec. ring. Qed.
Theorem C145_insulating_wall : forall f, wallKernel f -> insulating k -> sticking k -> flux f 4%Z = - dot3 (wallVelocity k fd a b) (momentum (flux f)).
Proof.
  intros f Hf Ik Sk. destruct (kernel_core f Hf) as (L & Rc & gr & lc & P & E & Gr).
  assert (M : momentum (flux f) = momentum (diffCore gr lc ne face L Rc)) by (unfold momentum; rewrite !E; reflexivity).
  rewrite M, core_mom, dot_opp, E. rewrite (proj2 (core_insulated gr lc ne face L Rc Hne (species_grad_zero L Rc gr P Gr))).
  unfold fourier. rewrite (heat_grad_zero L Rc gr Ik P Gr). rewrite (face_vel L Rc P), (halo_sticks Sk). unfold dot3 at 2, vzero. rewrite vx_mk, vy_mk, vz_mk. ring.
Qed.
Theorem C145_insulating_no_slip : forall f, wallKernel f -> k = adiabaticNoSlipWall -> flux f 4%Z = 0.
Proof.
  intros f Hf Ek. rewrite (C145_insulating_wall f Hf); [|now left|now left]. unfold wallVelocity. rewrite Ek. unfold dot3. rewrite vx_mk, vy_mk, vz_mk. ring.
Qed.
(** friction and heat conduction at sticking walls come from the first interior cell's gradients *)
Theorem C145_friction : sticking k -> momentum (flux (diffusiveFlux ne)) = opp (traction mu g1 A).
Proof.
  intros Sk. destruct (flux_pair (diffusiveFlux ne)) as (L & Rc & P & E). unfold momentum. rewrite !E. change (fun l => diffusiveFlux ne face L Rc l) with (diffusiveFlux ne face L Rc).
  change (momentum (diffusiveFlux ne face L Rc) = opp (traction mu g1 A)). unfold diffusiveFlux. rewrite core_mom, (mean_mu L Rc P). f_equal.
  assert (Q : forall l, (1 <= l <= 3)%Z -> plainGrad face L Rc l = g1 l).
  { intros l Hl. pose proof (vel_same l Sk Hl) as W. rewrite dG_c in W. pose proof (dG_c l). apply plain_same; destruct P as [[-> ->] | [-> ->]]; auto. }
  unfold traction. rewrite !Q by lia. reflexivity.
Qed.
Theorem C145_isothermal_heat : sticking k -> ~ insulating k -> flux (diffusiveFlux ne) 4%Z = - dot3 (wallVelocity k fd a b) (momentum (flux (diffusiveFlux ne))) - kappa * dot3 (g1 4%Z) A.
Proof.
  intros Sk NI. destruct (flux_pair (diffusiveFlux ne)) as (L & Rc & P & E). set (gr := plainGrad face L Rc).
  assert (Gr : gr = plainGrad face L Rc \/ (gr = dampedGrad face L Rc /\ mirroredNodes d ng n X a b)) by (left; reflexivity).
  assert (M : momentum (flux (diffusiveFlux ne)) = momentum (diffusiveFlux ne face L Rc)) by (unfold momentum; rewrite !E; reflexivity).
  rewrite M, E. unfold diffusiveFlux. fold gr. rewrite core_mom, dot_opp. rewrite (proj2 (core_insulated gr _ ne face L Rc Hne (species_grad_zero L Rc gr P Gr))).
  rewrite (face_vel L Rc P), (halo_sticks Sk). unfold fourier. rewrite (mean_kappa L Rc P).
  assert (Q : gr 4%Z = g1 4%Z).
  { pose proof (heat_same Sk NI) as W. rewrite dG_c in W. pose proof (dG_c 4%Z). apply plain_same; destruct P as [[-> ->] | [-> ->]]; auto. }
  rewrite Q. change (fs face) with A. ring.
Qed.
(** slip walls: nothing is rubbed along the wall; with the plain kernel nothing at all crosses it *)
Theorem C145_slip_plain : slipping k -> insulating k -> forall l, (0 <= l < ne)%Z -> flux (diffusiveFlux ne) l = 0.
Proof.
  intros Sk Ik. destruct (flux_pair (diffusiveFlux ne)) as (L & Rc & P & E). set (gr := plainGrad face L Rc).
  assert (Gr : gr = plainGrad face L Rc \/ (gr = dampedGrad face L Rc /\ mirroredNodes d ng n X a b)) by (left; reflexivity).
  assert (V0 : forall l, (1 <= l <= 3)%Z -> gr l = vzero) by (intros l Hl; apply plain_mirrored; apply pairs_mirrored; [exact P | now apply vel_mirrored]).
  assert (T0 : forall m s, traction m gr s = vzero).
  { intros m s. unfold traction. rewrite !V0 by lia. vext; ring. }
  pose proof (core_insulated gr (fun y => Rmax y 0) ne face L Rc Hne (species_grad_zero L Rc gr P Gr)) as [C1 C2].
  intros l Hl. rewrite E. unfold diffusiveFlux. fold gr.
  assert (C : (l = 0 \/ 5 <= l < ne \/ l = 4 \/ l = 1 \/ l = 2 \/ l = 3)%Z) by lia. destruct C as [C | [C | [-> | C]]].
  - apply C1. lia.
  - apply C1. lia.
  - rewrite C2, T0. unfold fourier. rewrite (heat_grad_zero L Rc gr Ik P Gr). unfold dot3, vzero. rewrite vx_mk, vy_mk, vz_mk. ring.
  - rewrite core_momentum by exact C. rewrite T0. destruct C as [-> | [-> | ->]]; unfold vzero; rewrite ?vx_mk, ?vy_mk, ?vz_mk; ring.
Qed.
Hypothesis Area : tiny <= sqrt (dot3 A A).
Lemma N_unit' : unitv N.
Proof. unfold unitv, N. exact (proj1 (proj2 (C21_unit_normal _ Area))). Qed.
Theorem C145_slip_damped : slipping k -> mirroredNodes d ng n X a b ->
  (forall t, dotv t N = 0 -> dotv t (momentum (flux (alphaDampingFlux ne))) = 0) /\ (insulating k -> flux (alphaDampingFlux ne) 4%Z = 0).
Proof.
  intros Sk Mi. destruct (flux_pair (alphaDampingFlux ne)) as (L & Rc & P & E). set (gr := dampedGrad face L Rc).
  assert (Gr : gr = plainGrad face L Rc \/ (gr = dampedGrad face L Rc /\ mirroredNodes d ng n X a b)) by (right; auto).
  assert (M : momentum (flux (alphaDampingFlux ne)) = opp (traction mu gr A)).
  { unfold momentum. rewrite !E. change (momentum (diffCore gr (fun y => y) ne face L Rc) = opp (traction mu gr A)). rewrite core_mom, (mean_mu L Rc P). reflexivity. }
  pose proof (halo_slips Sk) as Hs. set (un := dotv (velocity c) N) in *.
  assert (Sx : dq dh_ 1%Z = dq dc_ 1%Z - 2 * un * vx N) by (rewrite dq_h, dq_c; exact (f_equal vx Hs)).
  assert (Sy : dq dh_ 2%Z = dq dc_ 2%Z - 2 * un * vy N) by (rewrite dq_h, dq_c; exact (f_equal vy Hs)).
  assert (Sz : dq dh_ 3%Z = dq dc_ 3%Z - 2 * un * vz N) by (rewrite dq_h, dq_c; exact (f_equal vz Hs)).
  assert (Sg : exists s, gr 1%Z = vscale (s * vx N) N /\ gr 2%Z = vscale (s * vy N) N /\ gr 3%Z = vscale (s * vz N) N).
  { assert (Dm : forall l, (1 <= l <= 3)%Z -> gr l = vscale ((dq Rc l - dq L l) / magEdotN face L Rc) N).
    { intros l Hl. apply damped_mirrored; [now apply pairs_mid | apply pairs_mirrored; [exact P | now apply vel_mirrored]]. }
    rewrite !Dm by lia. destruct P as [[-> ->] | [-> ->]]; [exists (2 * un / magEdotN face dh_ dc_) | exists (- (2 * un) / magEdotN face dc_ dh_)]; rewrite Sx, Sy, Sz; unfold Rdiv;
      (split; [|split]; f_equal; ring). }
  destruct Sg as (s & G1 & G2 & G3).
  destruct (area_split A) as (A1 & A2 & A3). change (faceNormal A) with N in A1, A2, A3. set (S := faceSize A) in *.
  pose proof N_unit' as U. unfold unitv, dotv in U.
  assert (T : traction mu gr A = vscale (mu * s * S * (4 / 3)) N).
  { unfold traction. rewrite G1, G2, G3. vext; rewrite A1, A2, A3; set (x := vx N) in *; set (y := vy N) in *; set (z := vz N) in *.
    - transitivity (mu * s * S * x * (4 / 3) * (x * x + y * y + z * z)); [field | rewrite U; ring].
    - transitivity (mu * s * S * y * (4 / 3) * (x * x + y * y + z * z)); [field | rewrite U; ring].
    - transitivity (mu * s * S * z * (4 / 3) * (x * x + y * y + z * z)); [field | rewrite U; ring]. }
  split.
  - intros t Ht. rewrite M, T. unfold dotv, S_FluxKernels.opp in *. autorewrite with vec. transitivity (- (mu * s * S * (4 / 3)) * (vx t * vx N + vy t * vy N + vz t * vz N)); [ring | rewrite Ht; ring].
  - intros Ik. rewrite E. unfold alphaDampingFlux. fold gr. rewrite (proj2 (core_insulated gr _ ne face L Rc Hne (species_grad_zero L Rc gr P Gr))).
    unfold fourier. rewrite (heat_grad_zero L Rc gr Ik P Gr), (mean_mu L Rc P). change (fs face) with A. rewrite T, (face_vel L Rc P).
    unfold meanv. unfold dot3 at 2. unfold vzero. rewrite !vx_mk, !vy_mk, !vz_mk. rewrite dq_h in Sx, Sy, Sz. rewrite dq_c in Sx, Sy, Sz.
    unfold velocity. unfold dot3. autorewrite with vec. rewrite Sx, Sy, Sz.
    transitivity (mu * s * S * (4 / 3) * (un - un * (vx N * vx N + vy N * vy N + vz N * vz N))); [unfold un, dotv, velocity; autorewrite with vec; field | rewrite U; ring].
Qed.
End WallCell.
(** ** an insulating wall moving in y under a shear flow dv/dx = 1: all premises hold and the friction is not zero *)
Definition exX : nodes := fun i j k => (IZR i, IZR j, IZR k).
Definition exFD : faceData := mkFD (fun _ _ l => if (l =? 2)%Z then 1 else 0) (fun _ _ _ => 0) (fun _ _ => 0) (fun _ _ => 0).
Definition exBlk : field := fun i _ _ => mkCell (fun _ => 1) (fun l => if (l =? 2)%Z then 3 / 2 + IZR i else if (l =? 4)%Z then 300 else if (l =? 5)%Z then 1 / 2 else 0) (fun _ => 1).
Definition exGrad : gradField := fun _ _ _ l => if (l =? 2)%Z then (1, 0, 0) else if (l =? 4)%Z then (7, 0, 0) else (0, 0, 0).
Definition exD : dims := mkDims 3 3 3.
Lemma exArea i j k : iArea exX i j k = (1, 0, 0).
Proof. unfold iArea, exX. vext; rewrite ?plus_IZR; field. Qed.
Lemma ex_mirrored n a b : isBface n -> mirroredNodes exD 1 n exX a b.
Proof.
  intros H u v _ _. unfold nodeLayer, nodesAlong, cellOf, exX. destruct (face_cases n H) as [->|[->|[->|[->|[->| ->]]]]]; cbn [Z.odd Z.leb Z.compare Pos.compare Pos.compare_cont ni nj nk exD];
    vext; rewrite ?plus_IZR, ?minus_IZR, ?plus_IZR; lra.
Qed.
Example C145_nonvacuous : exists blk1 blk2 G',
  bcEuler adiabaticMovingWall (fun c => c) exD 1 6 1 exFD (fun i j l => faceNormal (iArea exX i j l)) (fun i j l => faceNormal (jArea exX i j l)) (fun i j l => faceNormal (kArea exX i j l)) exBlk = Some blk1 /\
  bcPre adiabaticMovingWall exD 1 1 exFD blk1 = Some blk2 /\ bcPost adiabaticMovingWall exD 1 6 1 exFD exGrad = Some G' /\
  keepsPrimitives 6 (fun c => c) /\ mirroredNodes exD 1 1 exX 1 1 /\ (forall l, (5 <= l < 6)%Z -> 0 <= cq (cellOf exBlk (layerCell exD 1 1 1 1 1)) l <= 1) /\
  bfaceFlux exD 1 1 (diffBlockFlux (diffusiveFlux 6) exX (seen blk2 (fun _ _ _ _ => 1)) G') 1 1 2%Z = - 1 /\
  bfaceFlux exD 1 1 (diffBlockFlux (diffusiveFlux 6) exX (seen blk2 (fun _ _ _ _ => 1)) G') 1 1 4%Z = 1.
Proof.
  assert (Hn : isBface 1) by (unfold isBface; lia). assert (Hg : (1 = 1 \/ 1 = 2)%Z) by lia. assert (D : (2 <= ni exD /\ 2 <= nj exD /\ 2 <= nk exD)%Z) by (cbn; lia).
  destruct (C50_writes_only_the_halo (fun c => c) exD 1 6 1 exFD (fun i j l => faceNormal (iArea exX i j l)) (fun i j l => faceNormal (jArea exX i j l)) (fun i j l => faceNormal (kArea exX i j l)) Hn Hg D adiabaticMovingWall exBlk) as (blk1 & E1 & _).
  destruct (C51_viscous_step_writes_velocity_only exD 1 1 exFD Hn Hg adiabaticMovingWall blk1) as (blk2 & E2 & _).
  assert (E3 : exists G', bcPost adiabaticMovingWall exD 1 6 1 exFD exGrad = Some G') by (eexists; reflexivity). destruct E3 as (G' & E3).
  assert (He : keepsPrimitives 6 (fun c => c)) by (split; auto).
  assert (Y : forall l, (5 <= l < 6)%Z -> 0 <= cq (cellOf exBlk (layerCell exD 1 1 1 1 1)) l <= 1) by (intros l Hl; replace l with 5%Z by lia; cbn; lra).
  assert (Ob : onBface exD 1 1 1 1) by (cbn; lia).
  assert (Wk : isWall adiabaticMovingWall) by (unfold isWall; cbn [In]; auto).
  assert (Sk : sticking adiabaticMovingWall) by (unfold sticking; auto).
  exists blk1, blk2, G'. split; [exact E1|]. split; [exact E2|]. split; [exact E3|]. split; [exact He|]. split; [now apply ex_mirrored|]. split; [exact Y|].
  pose proof (C145_friction (fun c => c) exD 1 6 1 exFD exX adiabaticMovingWall exBlk blk1 blk2 exGrad G' Hn ltac:(lia) Wk E1 E2 E3 1 1 Ob Y (fun _ _ _ _ => 1) Sk) as F.
  pose proof (C145_insulating_wall (fun c => c) exD 1 6 1 exFD exX adiabaticMovingWall exBlk blk1 blk2 exGrad G' Hn Hg D He ltac:(lia) Wk E1 E2 E3 1 1 Ob Y (fun _ _ _ _ => 1) (diffusiveFlux 6) (or_introl eq_refl) ltac:(unfold insulating; auto) Sk) as W.
  cbv zeta in F, W.
  assert (F2 := f_equal vy F). unfold momentum in F2. rewrite vy_mk in F2.
  assert (V2 : vy (opp (traction ((1 + 1) / 2) (cellOf exGrad (layerCell exD 1 1 1 1 1)) (bfaceArea exD 1 1 exX 1 1))) = - 1).
  { unfold bfaceArea. cbn [Z.leb Z.odd Z.compare Pos.compare Pos.compare_cont]. rewrite exArea. unfold traction, S_FluxKernels.opp, exGrad, cellOf. cbn [layerCell Z.leb Z.odd Z.compare Pos.compare Pos.compare_cont Z.eqb Pos.eqb]. vcomp. field. }
  assert (F3 : bfaceFlux exD 1 1 (diffBlockFlux (diffusiveFlux 6) exX (seen blk2 (fun _ _ _ _ => 1)) G') 1 1 2%Z = - 1) by (etransitivity; [exact F2 | exact V2]).
  split; [exact F3|]. etransitivity; [exact W|]. unfold momentum. rewrite F3. unfold wallVelocity, exFD, dot3. cbn [f_qBc Z.eqb Pos.eqb]. rewrite !vx_mk, !vy_mk, !vz_mk. ring.
Qed.
Print Assumptions C145_no_mass_no_species.
Print Assumptions C145_insulating_wall.
Print Assumptions C145_insulating_no_slip.
Print Assumptions C145_friction.
Print Assumptions C145_isothermal_heat.
Print Assumptions C145_slip_plain.
Print Assumptions C145_slip_damped.
Print Assumptions C145_generated_halo_mirrored.
