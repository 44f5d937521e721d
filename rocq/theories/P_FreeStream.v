(** Property C26: free-stream preservation of the advective terms. *)
From Coq Require Import Reals ZArith List Bool Lia Lra.
From Verif Require Import M_Topology S_Topology M_Halo S_Halo M_Grid M_Metrics S_Metrics S_Sum M_Flux S_Flux M_FluxKernels S_FluxKernels
  L_Grid3 L_Vec L_Flux1 L_FluxK1 L_FluxK2 P_Metrics P_Flux P_FluxKernels.
Import ListNotations.
Open Scope R_scope.

(** the schemes that are consistent for every state with non-zero internal energy and sound speed *)
Definition consistentSchemes : list flux1 :=
  [KEEP; KEEPpe; KEPaEC; centralDifference; fourthOrderKEEP; rusanov; muscl2rusanov; ausmPlusUp].
Lemma schemes_consistent f g st c l : In f consistentSchemes -> faceVectors g -> uniform st c -> coherent c -> 0 < c_c c -> c_re c <> 0 -> (0 <= l)%Z ->
  f g st l = eulerFlux c (gs g) l.
Proof.
  intros Hf HF HU HC Hc He Hl. unfold consistentSchemes in Hf. cbn [In] in Hf.
  destruct Hf as [<-|[<-|[<-|[<-|[<-|[<-|[<-|[<-|[]]]]]]]]]; try (apply C27_consistent; auto; cbn [In]; tauto).
  - now apply C27_consistent_KEPaEC.
  - now apply C27_consistent_ausmPlusUp.
Qed.

Lemma geo_faceVectors s : faceVectors (mkGeo (faceSize s) s (faceNormal s)).
Proof.
  unfold faceVectors. cbn [gs gS gn]. pose proof (C21_area_positive s). pose proof tiny_pos. unfold faceNormal. vext; field; lra.
Qed.
(** the Euler flux is linear in the area vector, so the fluxes of the six faces of a cell cancel *)
Lemma euler_closes c X i j k l : (0 <= l)%Z ->
  eulerFlux c (iArea X i j k) l + eulerFlux c (jArea X i j k) l + eulerFlux c (kArea X i j k) l =
  eulerFlux c (iArea X (i+1)%Z j k) l + eulerFlux c (jArea X i (j+1)%Z k) l + eulerFlux c (kArea X i j (k+1)%Z) l.
Proof.
  intros Hl. pose proof (C19_cell_faces_close X i j k) as H. pose proof (f_equal vx H) as H1. pose proof (f_equal vy H) as H2. pose proof (f_equal vz H) as H3. clear H. autorewrite with vec in H1, H2, H3.
  set (a := iArea X i j k) in *. set (b := jArea X i j k) in *. set (d := kArea X i j k) in *.
  set (a' := iArea X (i+1) j k) in *. set (b' := jArea X i (j+1) k) in *. set (d' := kArea X i j (k+1)) in *.
  clearbody a b d a' b' d'.
  assert (U: dot3 (vel c) a + dot3 (vel c) b + dot3 (vel c) d = dot3 (vel c) a' + dot3 (vel c) b' + dot3 (vel c) d').
  { unfold vel. vcomp. replace (vx a') with (vx a + vx b + vx d - vx b' - vx d') by lra.
    replace (vy a') with (vy a + vy b + vy d - vy b' - vy d') by lra. replace (vz a') with (vz a + vz b + vz d - vz b' - vz d') by lra. ring. }
  assert (U': dot3 (vel c) a' = dot3 (vel c) a + dot3 (vel c) b + dot3 (vel c) d - dot3 (vel c) b' - dot3 (vel c) d') by lra.
  lcases l Hl; [| | | | |rewrite !euler_ge5, U' by auto; ring]; cbn [eulerFlux]; cbv zeta; rewrite U'.
  - ring.
  - replace (vx a') with (vx a + vx b + vx d - vx b' - vx d') by lra. ring.
  - replace (vy a') with (vy a + vy b + vy d - vy b' - vy d') by lra. ring.
  - replace (vz a') with (vz a + vz b + vz d - vz b' - vz d') by lra. ring.
  - ring.
Qed.

Section FS.
Variables (f1 f2 : flux1) (X : nodes) (c : cell).
Hypotheses (H1 : In f1 consistentSchemes) (H2 : In f2 consistentSchemes) (HC : coherent c) (Hc : 0 < c_c c) (He : c_re c <> 0).
Let cells : Z -> Z -> Z -> cell := fun _ _ _ => c.
Lemma blockFlux_uniform f i j k l : In f consistentSchemes -> (0 <= l)%Z ->
  iF (blockFlux f X cells) i j k l = eulerFlux c (iArea X i j k) l /\
  jF (blockFlux f X cells) i j k l = eulerFlux c (jArea X i j k) l /\
  kF (blockFlux f X cells) i j k l = eulerFlux c (kArea X i j k) l.
Proof.
  intros Hf Hl. unfold blockFlux, cells. cbn [iF jF kF].
  repeat split; (rewrite (schemes_consistent f _ _ c) by first [assumption|apply geo_faceVectors|intros m _; reflexivity]; reflexivity).
Qed.
Lemma dissipation_uniform phi i j k l :
  iF (scalarDissipation phi X cells) i j k l = 0 /\ jF (scalarDissipation phi X cells) i j k l = 0 /\ kF (scalarDissipation phi X cells) i j k l = 0.
Proof. unfold scalarDissipation, scalarDissipationFlux, cells. cbn [iF jF kF]. cbv zeta. repeat split; ring. Qed.

End FS.

(** C26.  A uniform flow on ANY grid (no smoothness, orthogonality or even positivity of the cells) has a
    zero advective right-hand side: every consistent scheme, alone, blended with any other consistent
    scheme by any switch field, or with scalar artificial dissipation. *)
Theorem C26_advective_free_stream : forall f1 f2 X c d ng ne phi i j k l,
  In f1 consistentSchemes -> In f2 consistentSchemes -> coherent c -> 0 < c_c c -> c_re c <> 0 -> (0 <= l)%Z ->
  let cells := fun _ _ _ : Z => c in
  advectiveRHS NoShock d ng ne (volume X) phi (blockFlux f1 X cells) None i j k l = 0 /\
  advectiveRHS Hybrid d ng ne (volume X) phi (blockFlux f1 X cells) (Some (blockFlux f2 X cells)) i j k l = 0 /\
  advectiveRHS ArtificialDissipation d ng ne (volume X) phi (blockFlux f1 X cells) (Some (scalarDissipation phi X cells)) i j k l = 0.
Proof.
  intros f1 f2 X c d ng ne phi i j k l H1 H2 HC Hc He Hl cells.
  assert (V: volume X i j k <> 0). { pose proof tiny_pos. unfold volume, clip. pose proof (Rmax_r (rawVolume X i j k) tiny). lra. }
  pose proof (fun i j k => blockFlux_uniform X c HC Hc He f1 i j k l H1 Hl) as B1.
  pose proof (fun i j k => blockFlux_uniform X c HC Hc He f2 i j k l H2 Hl) as B2.
  pose proof (fun i j k => dissipation_uniform X c phi i j k l) as B3.
  pose proof (euler_closes c X i j k l Hl) as EC. fold cells in B1, B2, B3.
  unfold advectiveRHS, applyHybridFlux, applyFlux, applyDissipationFlux, dQzero. cbv zeta.
  rewrite !(proj1 (B1 _ _ _)), !(proj1 (proj2 (B1 _ _ _))), !(proj2 (proj2 (B1 _ _ _))).
  rewrite !(proj1 (B2 _ _ _)), !(proj1 (proj2 (B2 _ _ _))), !(proj2 (proj2 (B2 _ _ _))).
  rewrite !(proj1 (B3 _ _ _)), !(proj1 (proj2 (B3 _ _ _))), !(proj2 (proj2 (B3 _ _ _))).
  destruct (inCC d ng ne i j k l); [|repeat split; ring].
  set (a := eulerFlux c (iArea X i j k) l) in *. set (b := eulerFlux c (jArea X i j k) l) in *. set (e := eulerFlux c (kArea X i j k) l) in *.
  set (a' := eulerFlux c (iArea X (i+1)%Z j k) l) in *. set (b' := eulerFlux c (jArea X i (j+1)%Z k) l) in *. set (e' := eulerFlux c (kArea X i j (k+1)%Z) l) in *.
  clearbody a b e a' b' e'. replace a' with (a + b + e - b' - e') by lra.
  repeat split; field; auto.
Qed.

(** HLLC does not preserve a uniform oblique subsonic flow: on a grid of wedge-shaped cells the
    x-momentum of the first cell starts to change. *)
Definition wedge : nodes := fun i j k => ((IZR i - 1) * (4 + 4 * (IZR j - 1)), 3 * (IZR j - 1), IZR k - 1).
Lemma sqrt_sq x y : 0 <= y -> x = y * y -> sqrt x = y.
Proof. intros H ->. now apply sqrt_square. Qed.
Theorem C26_hllc_refuted : exists X c d i j k, coherent c /\ 0 < c_rho c /\ 0 < c_p c /\ 0 < c_c c /\
  interiorCell d 1 i j k /\ 0 < rawVolume X i j k /\
  (forall phi f, In f [hllc; muscl2hllc] ->
    advectiveRHS NoShock d 1 5 (volume X) phi (blockFlux f X (fun _ _ _ => c)) None i j k 1%Z <> 0).
Proof.
  exists wedge, oblique, (mkDims 2 2 2), 1%Z, 1%Z, 1%Z.
  assert (HC: coherent oblique) by (apply exCell_coherent; lra).
  split; [auto|]. do 3 (split; [cbn; lra|]). split; [unfold interiorCell; cbn; lia|].
  assert (A1: iArea wedge 1 1 1 = (3, 0, 0)) by (unfold iArea, wedge; cbn [Z.add Pos.add Pos.succ]; vext; field).
  assert (A2: iArea wedge 2 1 1 = (3, -4, 0)) by (unfold iArea, wedge; cbn [Z.add Pos.add Pos.succ]; vext; field).
  assert (A3: jArea wedge 1 1 1 = (0, 4, 0)) by (unfold jArea, wedge; cbn [Z.add Pos.add Pos.succ]; vext; field).
  assert (A4: jArea wedge 1 2 1 = (0, 8, 0)) by (unfold jArea, wedge; cbn [Z.add Pos.add Pos.succ]; vext; field).
  assert (A5: kArea wedge 1 1 1 = (0, 0, 18)) by (unfold kArea, wedge; cbn [Z.add Pos.add Pos.succ]; vext; field).
  assert (A6: kArea wedge 1 1 2 = (0, 0, 18)) by (unfold kArea, wedge; cbn [Z.add Pos.add Pos.succ]; vext; field).
  assert (V: rawVolume wedge 1 1 1 = 18).
  { unfold rawVolume. cbn [Z.add Pos.add Pos.succ]. rewrite A2, A4, A6. unfold wedge. vcomp. field. }
  split; [rewrite V; lra|].
  assert (T: tiny < 1). { unfold tiny. apply Rmult_lt_reg_l with 10000000000000000; [lra|]. rewrite Rinv_r; lra. }
  assert (Hh: forall s r, 1 <= r -> vx s * vx s + vy s * vy s + vz s * vz s = r * r -> faceSize s = r).
  { intros s r Hr E. unfold faceSize, clip. rewrite (sqrt_sq _ r) by (auto; lra). apply Rmax_left. lra. }
  assert (S1: faceSize (3,0,0) = 3) by (apply Hh; vcomp; lra). assert (S2: faceSize (3,-4,0) = 5) by (apply Hh; vcomp; lra).
  assert (S3: faceSize (0,4,0) = 4) by (apply Hh; vcomp; lra). assert (S4: faceSize (0,8,0) = 8) by (apply Hh; vcomp; lra).
  assert (S5: faceSize (0,0,18) = 18) by (apply Hh; vcomp; lra).
  intros phi f Hf.
  assert (U: forall g, faceVectors g -> f g (fun _ => oblique) 1%Z = hllcUniform g oblique 1%Z).
  { intros g HF. apply hllc_on_uniform; auto; try lia; try (cbn; lra). intros ? ?. reflexivity. }
  unfold advectiveRHS, applyFlux, dQzero. cbn [inCC ni nj nk Z.leb Z.ltb Z.add Z.sub Z.opp Z.compare Pos.add Pos.succ Pos.compare Pos.compare_cont andb Z.pos_sub Pos.pred_double].
  change (inCC {| ni := 2; nj := 2; nk := 2 |} 1 5 1 1 1 1) with true. cbv iota.
  unfold blockFlux. cbn [iF jF kF]. change (stI (fun _ _ _ : Z => oblique)) with (fun _ _ _ _ : Z => oblique).
  change (stJ (fun _ _ _ : Z => oblique)) with (fun _ _ _ _ : Z => oblique). change (stK (fun _ _ _ : Z => oblique)) with (fun _ _ _ _ : Z => oblique).
  cbv beta zeta. rewrite !U by apply geo_faceVectors. unfold geoI, geoJ, geoK. rewrite A1, A2, A3, A4, A5, A6.
  unfold faceNormal. rewrite S1, S2, S3, S4, S5. vcomp.
  unfold volume, clip. rewrite V, Rmax_left by lra.
  unfold hllcUniform, tangential. cbv zeta. cbn [gn gs gS Z.eqb Pos.eqb]. unfold eulerFlux, vel, oblique, exCell, c_c, c_p, c_rho, c_u, c_v, c_w. cbn [cq cQ ch]. vcomp.
  repeat (destruct (Rle_dec _ _); try lra).
Qed.

Example C26_nonvacuous : exists c, coherent c /\ 0 < c_c c /\ c_re c <> 0 /\ c_u c = 1 /\ c_v c = 1 /\ In fourthOrderKEEP consistentSchemes /\ iArea wedge 2 1 1 = (3,-4,0).
Proof.
  exists oblique. split; [apply exCell_coherent; lra|]. do 4 (split; [cbn; try lra; try reflexivity|]).
  split; [unfold consistentSchemes; cbn [In]; tauto|]. unfold iArea, wedge. cbn [Z.add Pos.add Pos.succ]. vext; field.
Qed.
Print Assumptions C26_advective_free_stream.
