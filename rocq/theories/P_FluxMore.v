(** Properties C29-C32: kinetic energy, HLLC limits, Rusanov wave speed, scalar dissipation. *)
From Coq Require Import Reals ZArith List Bool Lia Lra.
From Verif Require Import M_Topology S_Topology M_Halo S_Halo M_Grid M_Metrics S_Metrics S_Sum M_Flux S_Flux M_FluxKernels S_FluxKernels S_Interface
  L_Grid3 L_Vec L_Flux1 L_FluxK1 L_FluxK2 P_Metrics P_Flux P_FluxKernels P_FluxSym.
Import ListNotations.
Open Scope R_scope.

(** C29.  The momentum flux of KEEP, KEEPpe and KEPaEC is mass flux times mean velocity plus mean pressure force. *)
Theorem C29_flux_form : forall f g st, In f [KEEP; KEEPpe; KEPaEC] ->
  let L := st (-1)%Z in let Rc := st 0%Z in
  f g st 0%Z = massFlux g L Rc /\
  f g st 1%Z = massFlux g L Rc * ((c_u L + c_u Rc) / 2) + vx (meanPressureForce g L Rc) /\
  f g st 2%Z = massFlux g L Rc * ((c_v L + c_v Rc) / 2) + vy (meanPressureForce g L Rc) /\
  f g st 3%Z = massFlux g L Rc * ((c_w L + c_w Rc) / 2) + vz (meanPressureForce g L Rc).
Proof.
  intros f g st Hf L Rc.
  assert (E: exists Ij, f g st = keepLike Ij g L Rc) by (repeat (destruct Hf as [<-|Hf]); [eexists; reflexivity..|destruct Hf]).
  destruct E as [Ij ->]. unfold keepLike, massFlux, meanPressureForce, vel. cbv zeta. cbn [comp Z.eqb Pos.eqb]. vcomp. repeat split; field.
Qed.
(** Kinetic-energy budget of one cell: convection only transports it, the pressure does work on it. *)
Theorem C29_cell_budget : forall f d ng ne X (c : array3 cell) phi i j k, In f [KEEP; KEEPpe; KEPaEC] -> (4 <= ne)%Z -> interiorCell d ng i j k ->
  let rhs := advectiveRHS NoShock d ng ne (volume X) phi (blockFlux f X c) None i j k in
  volume X i j k * keRate (c i j k) rhs = netR (keFluxes X c) i j k + dot3 (vel (c i j k)) (netV (pressureForces X c) i j k).
Proof.
  intros f d ng ne X c phi i j k Hf Hne Hi rhs.
  assert (V: volume X i j k <> 0). { pose proof tiny_pos. unfold volume, clip. pose proof (Rmax_r (rawVolume X i j k) tiny). lra. }
  assert (R: forall l, (0 <= l < 4)%Z -> volume X i j k * rhs l = netR (fun a => fluxOf (blockFlux f X c) l a) i j k).
  { intros l Hl. unfold rhs, advectiveRHS, applyFlux, dQzero. rewrite inCC_in by (auto; lia). cbv zeta. unfold netR. cbn [fluxOf]. field. auto. }
  assert (K: volume X i j k * keRate (c i j k) rhs = c_u (c i j k) * (volume X i j k * rhs 1%Z) + c_v (c i j k) * (volume X i j k * rhs 2%Z) +
     c_w (c i j k) * (volume X i j k * rhs 3%Z) - dot3 (vel (c i j k)) (vel (c i j k)) / 2 * (volume X i j k * rhs 0%Z)) by (unfold keRate; ring).
  rewrite K, !R by lia. clear K R rhs. unfold netR, netV. cbn [fluxOf blockFlux iF jF kF].
  pose proof (fun g st => C29_flux_form f g st Hf) as FF. cbv zeta in FF.
  rewrite !(fun g st => proj1 (FF g st)), !(fun g st => proj1 (proj2 (FF g st))), !(fun g st => proj1 (proj2 (proj2 (FF g st)))), !(fun g st => proj2 (proj2 (proj2 (FF g st)))).
  unfold keFluxes, pressureForces, keFlux, faceGeo, below, stI, stJ, stK.
  rewrite !Z.add_0_r, !Z.add_simpl_r. change (i + -1)%Z with (i - 1)%Z. change (j + -1)%Z with (j - 1)%Z. change (k + -1)%Z with (k - 1)%Z.
  replace (i + 1 + -1)%Z with i by ring. replace (j + 1 + -1)%Z with j by ring. replace (k + 1 + -1)%Z with k by ring.
  repeat match goal with |- context [massFlux ?g ?a ?b] => let m := fresh "m" in set (m := massFlux g a b) in *; clearbody m end.
  repeat match goal with |- context [meanPressureForce ?g ?a ?b] => let m := fresh "m" in set (m := meanPressureForce g a b) in *; clearbody m end.
  unfold vel. vcomp. field.
Qed.
(** ... so over a whole block convection changes kinetic energy only through the block's boundary. *)
Theorem C29_block_budget : forall f d ng ne X (c : array3 cell) phi, In f [KEEP; KEEPpe; KEPaEC] -> (4 <= ne)%Z ->
  (1 <= ni d)%Z -> (1 <= nj d)%Z -> (1 <= nk d)%Z ->
  sum3 (cellLo ng) (cellHi d ng) (fun i j k =>
     volume X i j k * keRate (c i j k) (advectiveRHS NoShock d ng ne (volume X) phi (blockFlux f X c) None i j k) -
     dot3 (vel (c i j k)) (netV (pressureForces X c) i j k)) =
  - sumR (fun s : saxis => (if snd s then 1 else -1) * sum3 (faceLo d ng s) (faceHi d ng s) (keFluxes X c (fst s))) sixDirs.
Proof.
  intros f d ng ne X c phi Hf Hne H1 H2 H3.
  rewrite (block_sum d ng (keFluxes X c I) (keFluxes X c J) (keFluxes X c K)); [reflexivity|auto|auto|auto|].
  - intros i j k Hi Hj Hk. rewrite (C29_cell_budget f d ng ne X c phi i j k Hf Hne) by (unfold interiorCell; auto). unfold netR. ring.
Qed.

(** C30.  HLLC: all waves to the right give the left flux, all waves to the left the right flux. *)
Theorem C30_left_flux : forall g st l SL Ss SR, faceVectors g -> coherent (st (-1)%Z) -> physical (st (-1)%Z) -> physical (st 0%Z) -> (0 <= l)%Z ->
  waveSpeeds g (st (-1)%Z) (st 0%Z) = (SL, Ss, SR) -> 0 <= SL -> hllc g st l = eulerFlux (st (-1)%Z) (gs g) l.
Proof.
  intros g st l SL Ss SR HF HC [P1 P2] [P3 P4] Hl HW HS.
  pose proof (Rmult_lt_0_compat _ _ P1 P2). pose proof (Rmult_lt_0_compat _ _ P3 P4). rewrite waves in HW by lra. injection HW as W1 W2 W3.
  unfold hllc, hllcFlux. cbv zeta. rewrite W1. destruct (Rle_dec 0 SL); [|lra]. apply sideFlux_consistent; auto. now apply ofCell_is.
Qed.
Theorem C30_right_flux : forall g st l SL Ss SR, faceVectors g -> coherent (st 0%Z) -> physical (st (-1)%Z) -> physical (st 0%Z) -> (0 <= l)%Z ->
  waveSpeeds g (st (-1)%Z) (st 0%Z) = (SL, Ss, SR) -> SL < 0 -> Ss < 0 -> SR <= 0 -> hllc g st l = eulerFlux (st 0%Z) (gs g) l.
Proof.
  intros g st l SL Ss SR HF HC [P1 P2] [P3 P4] Hl HW S1 S2 S3.
  pose proof (Rmult_lt_0_compat _ _ P1 P2). pose proof (Rmult_lt_0_compat _ _ P3 P4). rewrite waves in HW by lra. injection HW as W1 W2 W3.
  unfold hllc, hllcFlux. cbv zeta. rewrite W1, W2, W3. destruct (Rle_dec 0 SL); [lra|]. destruct (Rle_dec SL 0); [|lra]. destruct (Rle_dec 0 Ss); [lra|].
  destruct (Rle_dec Ss 0); [|lra]. destruct (Rle_dec SR 0); [|lra].
  assert (E: sideFlux g (ofCell (st 0%Z)) l = eulerFlux (st 0%Z) (gs g) l) by (apply sideFlux_consistent; auto; now apply ofCell_is).
  destruct (Rle_dec 0 SR); auto. replace SR with 0 by lra. rewrite starFlux_zero; auto.
Qed.
(** A contact at rest (equal pressures, no velocity, any densities and compositions): pressure flux only. *)
Theorem C30_resting_contact_partial : forall g st l, faceVectors g -> coherent (st (-1)%Z) -> coherent (st 0%Z) -> physical (st (-1)%Z) -> physical (st 0%Z) -> (0 <= l)%Z ->
  c_p (st (-1)%Z) = c_p (st 0%Z) -> vel (st (-1)%Z) = vzero -> vel (st 0%Z) = vzero ->
  hllc g st l = match l with 1%Z => c_p (st 0%Z) * vx (gs g) | 2%Z => c_p (st 0%Z) * vy (gs g) | 3%Z => c_p (st 0%Z) * vz (gs g) | _ => 0 end.
Proof.
  intros g st l HF HC1 HC2 [P1 P2] [P3 P4] Hl Ep E1 E2. set (A := st (-1)%Z) in *. set (B := st 0%Z) in *.
  pose proof (Rmult_lt_0_compat _ _ P1 P2). pose proof (Rmult_lt_0_compat _ _ P3 P4).
  assert (W: waveSpeeds g A B = (- c_c A, 0, c_c B)).
  { unfold waveSpeeds, faceNormalVelocity. rewrite E1, E2, Ep. cbv zeta. vcomp. apply (f_equal2 pair); [apply (f_equal2 pair); [ring|]|ring]. field. lra. }
  rewrite waves in W by lra. injection W as W1 W2 W3.
  unfold hllc, hllcFlux. fold A. fold B. cbv zeta. rewrite W1, W2, W3. destruct (Rle_dec 0 (- c_c A)); [lra|]. destruct (Rle_dec (- c_c A) 0); [|lra]. destruct (Rle_dec 0 0); [|lra].
  assert (F0: fn g (ofCell A) = 0). { rewrite fn_ofCell. unfold faceNormalVelocity. rewrite E1. vcomp. ring. }
  pose proof (f_equal vx E1) as U1. pose proof (f_equal vy E1) as U2. pose proof (f_equal vz E1) as U3. unfold vel in U1, U2, U3. autorewrite with vec in U1, U2, U3.
  destruct HC1 as (Hr & Q1 & Q2 & Q3 & QE & QY). rewrite U1 in Q1. rewrite U2 in Q2. rewrite U3 in Q3.
  unfold starFlux. cbv zeta. rewrite F0. unfold sideFlux. cbv zeta. rewrite F0. cbn [ofCell f_rho f_mx f_my f_mz f_p f_E f_rY f_Y]. rewrite Q1, Q2, Q3, Ep.
  lcases l Hl; [| | | | |rewrite comp_ge5 by auto; destruct l as [|[[p|p|]|[p|p|]|]|p]; try lia; try (rewrite QY by auto; field; lra); destruct p; try lia; rewrite QY by auto; field; lra];
  cbn [comp Z.eqb Pos.eqb]; field; lra.
Qed.
(** ... but a slip line (normal velocity zero, different tangential velocities) at rest leaks momentum. *)
Theorem C30_slip_line_refuted : exists g st, faceVectors g /\ dot3 (gn g) (gn g) = 1 /\
  (forall m, coherent (st m) /\ physical (st m) /\ c_p (st m) = 1 /\ faceNormalVelocity g (st m) = 0) /\ hllc g st 2%Z <> 0 /\ vy (gs g) = 0.
Proof.
  pose (A := exCell 1 0 1 0 1 (2 + 1/2 * (0*0+1*1+0*0)) 10 2). pose (B := exCell 1 0 (-1) 0 1 (2 + 1/2 * (0*0+(-1)*(-1)+0*0)) 10 2).
  exists unitX, (stepCells A B). split; [unfold faceVectors, unitX; cbn [gs gS gn]; vext; ring|]. split; [unfold unitX; cbn [gn]; vcomp; ring|].
  split. { intros m. unfold stepCells. destruct (m <? 0)%Z; (split; [apply exCell_coherent; lra|]; split; [unfold physical; cbn; lra|]; split; [reflexivity|];
     unfold faceNormalVelocity, unitX, vel, A, B, exCell, c_u, c_v, c_w; cbn [cq gn]; vcomp; ring). }
  split; [|reflexivity].
  assert (W: waveSpeeds unitX A B = (- 10, 0, 10)).
  { unfold waveSpeeds, faceNormalVelocity, unitX, vel, A, B, exCell, c_u, c_v, c_w, c_p, c_rho, c_c. cbn [cq cQ ch gn]. cbv zeta. vcomp.
    apply (f_equal2 pair); [apply (f_equal2 pair); [ring|]|ring]. field. }
  rewrite waves in W by (unfold A, B, exCell, c_rho, c_c; cbn [cQ ch]; lra). injection W as W1 W2 W3.
  unfold hllc, hllcFlux. change (stepCells A B (-1)) with A. change (stepCells A B 0) with B. cbv zeta. rewrite W1, W2, W3.
  destruct (Rle_dec 0 (-10)); [lra|]. destruct (Rle_dec (-10) 0); [|lra]. destruct (Rle_dec 0 0); [|lra].
  unfold starFlux, sideFlux. cbv zeta. rewrite fn_ofCell. cbn [comp Z.eqb Pos.eqb].
  unfold faceNormalVelocity, unitX, vel, A, B, exCell, c_u, c_v, c_w, c_p, c_rho, c_c, ofCell. cbn [f_rho f_mx f_my f_mz f_p cq cQ ch gn gs gS]. cbv zeta. cbn [cq cQ ch]. vcomp. unfold c_u, c_v, c_w, c_p, c_rho. cbn [cq cQ]. lra.
Qed.

(** C31.  MUSCL-Rusanov: central flux of the reconstructed states minus dissipation whose speed bounds
    |U|+c of both. *)
Theorem C31_muscl2rusanov_speed : forall g st, faceVectors g -> exists lam L Rs,
  stateSpeed g L <= lam /\ stateSpeed g Rs <= lam /\ L = musclState false st false /\ Rs = musclState false st true /\
  forall l, (0 <= l)%Z -> muscl2rusanov g st l = upwindForm lam g L Rs l.
Proof.
  intros g st HF. set (L := musclState false st false). set (Rs := musclState false st true). exists (muscl2rusanovLam g L Rs), L, Rs.
  assert (FN: forall s, fn g s = dot3 (f_u s, f_v s, f_w s) (gn g)) by (intros s; unfold fn; vcomp; ring).
  unfold muscl2rusanovLam, stateSpeed. rewrite !FN. split; [apply Rmax_l|]. split; [apply Rmax_r|]. do 2 (split; [reflexivity|]).
  intros l Hl. unfold muscl2rusanov. fold L. fold Rs. unfold muscl2rusanovLam. rewrite !FN. generalize (Rmax (Rabs (dot3 (f_u L, f_v L, f_w L) (gn g)) + f_c L) (Rabs (dot3 (f_u Rs, f_v Rs, f_w Rs) (gn g)) + f_c Rs)).
  intros lam. clearbody L Rs. unfold rusanovFlux, upwindForm. cbv zeta.
  assert (FS: forall s, fn g s * gS g = dot3 (f_u s, f_v s, f_w s) (gs g)) by (intros s; rewrite FN, HF; vcomp; ring). rewrite !FS.
  assert (G5: forall s, (5 <= l)%Z -> stateFlux g s l = f_rY s l * dot3 (f_u s, f_v s, f_w s) (gs g) /\ stateCons s l = f_rY s l).
  { intros s H5. unfold stateFlux, stateCons. cbv zeta. destruct l as [|[[p|p|]|[p|p|]|]|p]; try lia; auto; destruct p; try lia; auto. }
  lcases l Hl; [| | | | |rewrite comp_ge5 by auto; rewrite !(proj1 (G5 _ Hl5)), !(proj2 (G5 _ Hl5)); field]; cbn [comp Z.eqb Pos.eqb stateFlux stateCons]; cbv zeta; field.
Qed.
(** First-order Rusanov pairs each velocity with the OTHER state's sound speed: for some states no
    admissible speed reproduces its flux. *)
Theorem C31_rusanov_refuted : exists g st, faceVectors g /\ dot3 (gn g) (gn g) = 1 /\ (forall m, coherent (st m) /\ physical (st m) /\ 0 < c_p (st m)) /\
  forall lam, (forall l, (0 <= l)%Z -> rusanov g st l = upwindForm lam g (ofCell (st (-1)%Z)) (ofCell (st 0%Z)) l) ->
    lam < stateSpeed g (ofCell (st (-1)%Z)).
Proof.
  pose (A := exCell 1 10 0 0 1 (2 + 1/2 * (10*10+0*0+0*0)) 10 2). pose (B := exCell 2 0 0 0 1 (2 + 2/2 * (0*0+0*0+0*0)) 1 2).
  exists unitX, (stepCells A B). split; [unfold faceVectors, unitX; cbn [gs gS gn]; vext; ring|]. split; [unfold unitX; cbn [gn]; vcomp; ring|].
  split. { intros m. unfold stepCells. destruct (m <? 0)%Z; (split; [apply exCell_coherent; lra|]; split; [unfold physical; cbn; lra|cbn; lra]). }
  intros lam H. specialize (H 0%Z ltac:(lia)). revert H. unfold rusanov, rusanovFlux, upwindForm, stateFlux, stateCons, stateSpeed, rusanovLam. 
  change (stepCells A B (-1)) with A. change (stepCells A B 0) with B. rewrite !fn_ofCell. cbv zeta. cbn [comp Z.eqb].
  unfold faceNormalVelocity, unitX, vel, A, B, exCell, c_u, c_v, c_w, c_p, c_rho, c_c, ofCell. cbn [f_rho f_u f_v f_w f_c f_p cq cQ ch gn gs gS].
  unfold c_u, c_v, c_w, c_p, c_rho, c_c. cbn [cq cQ ch]. vcomp.
  replace (10 * 1 + 0 * 0 + 0 * 0) with 10 by ring. replace (0 * 1 + 0 * 0 + 0 * 0) with 0 by ring. rewrite Rabs_R0, (Rabs_pos_eq 10) by lra.
  rewrite Rmax_left by lra. lra.
Qed.

(** C32.  In the i direction the dissipation on a face depends only on the four cells across it, and
    vanishes when they are equal. *)
Theorem C32_i_direction_partial : forall phi X c c' i j k l,
  (forall m, (-2 <= m <= 1)%Z -> c (i + m)%Z j k = c' (i + m)%Z j k) ->
  iF (scalarDissipation phi X c) i j k l = iF (scalarDissipation phi X c') i j k l /\
  ((forall m, (-2 <= m <= 1)%Z -> c (i + m)%Z j k = c i j k) -> iF (scalarDissipation phi X c) i j k l = 0).
Proof.
  intros phi X c c' i j k l H. unfold scalarDissipation. cbn [iF].
  assert (A: forall (c : Z -> Z -> Z -> cell), (c (i-2)%Z j k = c (i + -2)%Z j k) /\ (c (i-1)%Z j k = c (i + -1)%Z j k) /\ c i j k = c (i + 0)%Z j k) by (intros; rewrite Z.add_0_r; auto).
  split.
  - destruct (A c) as (-> & -> & ->), (A c') as (-> & -> & ->). now rewrite !H by lia.
  - intros E. destruct (A c) as (-> & -> & _). rewrite !E by lia. unfold scalarDissipationFlux. cbv zeta. ring.
Qed.
(** In the j and k directions the fourth difference reads the cell at i+1: a face between four equal
    cells still receives dissipation. *)
Theorem C32_jk_directions_refuted : exists phi X c, (forall i j k, coherent (c i j k) /\ physical (c i j k)) /\
  (forall m, (-2 <= m <= 1)%Z -> c 1%Z (1 + m)%Z 1%Z = c 1%Z 1%Z 1%Z) /\ jF (scalarDissipation phi X c) 1%Z 1%Z 1%Z 0%Z <> 0 /\
  (forall m, (-2 <= m <= 1)%Z -> c 1%Z 1%Z (1 + m)%Z = c 1%Z 1%Z 1%Z) /\ kF (scalarDissipation phi X c) 1%Z 1%Z 1%Z 0%Z <> 0.
Proof.
  pose (A := exCell 1 0 0 0 1 (2 + 1/2 * (0*0+0*0+0*0)) 10 2). pose (B := exCell 2 0 0 0 1 (2 + 2/2 * (0*0+0*0+0*0)) 10 2).
  pose (X := fun _ _ _ : Z => (0, 0, 0) : vec).
  exists (fun _ _ _ _ => 0), X, (fun i j k => if (i =? 2)%Z then B else A).
  split. { intros i j k. destruct (i =? 2)%Z; (split; [apply exCell_coherent; lra|unfold physical; cbn; lra]). }
  pose proof tiny_pos as T.
  assert (V: forall g (highI : Z -> R), 0 < gS g -> scalarDissipationFlux (Rmax 0 0) g A A A B 0%Z <> 0).
  { intros g _ Hg. unfold scalarDissipationFlux. cbv zeta. rewrite Rmax_left by lra.
    replace (Rmax 0 (5 / 1000 - 5 / 10 * 0)) with (5/1000) by (rewrite Rmax_right by lra; ring).
    unfold A, B, exCell, c_u, c_v, c_w, c_c. cbn [cq cQ ch].
    match goal with |- context [Rabs ?x] => pose proof (Rabs_pos x); set (r := Rabs x) in *; clearbody r end.
    pose proof (Rmult_lt_0_compat (r + 5/10 * (10 + 10)) (gS g) ltac:(lra) Hg). set (q := (r + 5/10 * (10 + 10)) * gS g) in *. clearbody q. lra. }
  split; [reflexivity|]. split.
  - unfold scalarDissipation. cbn [jF]. change (1 - 2)%Z with (-1)%Z. change (1 - 1)%Z with 0%Z. change (1 + 1)%Z with 2%Z. cbn [Z.eqb Pos.eqb].
    apply V; [exact (fun _ => 0)|]. unfold geoJ. cbn [gS]. pose proof (C21_area_positive (jArea X 1 1 1)). lra.
  - split; [reflexivity|]. unfold scalarDissipation. cbn [kF]. change (1 - 2)%Z with (-1)%Z. change (1 - 1)%Z with 0%Z. change (1 + 1)%Z with 2%Z. cbn [Z.eqb Pos.eqb].
    apply V; [exact (fun _ => 0)|]. unfold geoK. cbn [gS]. pose proof (C21_area_positive (kArea X 1 1 1)). lra.
Qed.

(** Non-vacuity: a supersonic stream to the right; contact of two gases; a budget with real terms. *)
Example C30_nonvacuous : let st := stepCells streamR streamR in exists SL Ss SR, waveSpeeds unitX (st (-1)%Z) (st 0%Z) = (SL, Ss, SR) /\ 0 <= SL /\ physical streamR /\ coherent streamR /\ faceVectors unitX /\ eulerFlux streamR (gs unitX) 0%Z = 20.
Proof.
  cbv zeta. eexists. eexists. eexists. split; [reflexivity|].
  split; [unfold faceNormalVelocity, unitX, vel, stepCells, streamR, exCell, c_u, c_v, c_w, c_c; cbn [cq ch gn Z.ltb Z.compare]; vcomp; lra|].
  split; [unfold physical; cbn; lra|]. split; [apply exCell_coherent; lra|]. split; [unfold faceVectors, unitX; cbn [gs gS gn]; vext; ring|].
  unfold eulerFlux, vel, unitX, streamR, exCell, c_rho, c_u, c_v, c_w. cbn [cq cQ gs]. vcomp. ring.
Qed.
Example C30_contact_nonvacuous : exists A B, coherent A /\ coherent B /\ physical A /\ physical B /\ c_p A = c_p B /\ vel A = vzero /\ vel B = vzero /\ c_rho A <> c_rho B.
Proof.
  exists (exCell 1 0 0 0 1 (2 + 1/2 * (0*0+0*0+0*0)) 10 2), (exCell 3 0 0 0 1 (2 + 3/2 * (0*0+0*0+0*0)) 5 2).
  split; [apply exCell_coherent; lra|]. split; [apply exCell_coherent; lra|]. do 2 (split; [unfold physical; cbn; lra|]). do 3 (split; [reflexivity|]). cbn. lra.
Qed.
Print Assumptions C29_block_budget.
Print Assumptions C31_rusanov_refuted.

