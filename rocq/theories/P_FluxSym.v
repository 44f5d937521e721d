(** Properties C28, C83 (symmetry of the kernels) and C84 (conservation over all blocks, end to end). *)
From Coq Require Import Reals ZArith List Bool Lia Lra.
From Verif Require Import M_Topology S_Topology M_Halo S_Halo M_Grid M_Metrics S_Metrics S_Sum M_Flux S_Flux M_FluxKernels S_FluxKernels S_Interface
  L_Grid3 L_Vec L_Flux1 L_FluxK1 L_FluxK2 L_Interface2 P_Metrics P_Halo P_Flux P_FluxKernels.
Import ListNotations.
Open Scope R_scope.

(** C28.  Counting the cells from the other side and reversing the face vector negates the flux. *)
Theorem C28_central_antisymmetric : forall f, In f [KEEP; KEEPpe; KEPaEC; centralDifference; fourthOrderKEEP] -> antisymmetric f.
Proof.
  intros f Hf. repeat (destruct Hf as [<-|Hf]); [apply KEEP_rev|apply KEEPpe_rev|apply KEPaEC_rev|apply central_rev|apply fourth_rev|destruct Hf].
Qed.
(** C83.  The first-order upwind schemes too (AUSM+-up where density and sound speed are positive). *)
Theorem C83_rusanov_antisymmetric : antisymmetric rusanov.
Proof. exact rusanov_rev. Qed.
Definition physical (c : cell) : Prop := 0 < c_rho c /\ 0 < c_c c.
Theorem C83_ausm_antisymmetric : antisymmetricOn physical 1 ausmPlusUp.
Proof.
  intros g st l Hl HP. destruct (HP 0%Z ltac:(lia)) as [P1 P2], (HP (-1)%Z ltac:(lia)) as [P3 P4]. apply ausm_rev; auto; lra.
Qed.

(** HLLC: antisymmetric when the three wave speeds are ordered and the contact moves. *)
Lemma sideFlux_rev g s l : (0 <= l)%Z -> sideFlux (reverseFace g) s l = - sideFlux g s l.
Proof.
  intros Hl. unfold sideFlux. cbv zeta. rewrite fn_rev. unfold reverseFace. cbn [gs gS]. unfold opp. autorewrite with vec.
  lcases l Hl; [| | | | |rewrite !comp_ge5 by auto; ring]; cbn [comp Z.eqb Pos.eqb]; ring.
Qed.
Lemma starFlux_rev g W Ss s l : (0 <= l)%Z -> starFlux (reverseFace g) (- W) (- Ss) s l = - starFlux g W Ss s l.
Proof.
  intros Hl. unfold starFlux. cbv zeta. rewrite !sideFlux_rev by lia. rewrite fn_rev. unfold reverseFace. cbn [gn gS]. unfold opp. autorewrite with vec.
  set (U := fn g s). replace (- W - - U) with (- (W - U)) by ring. replace (- W - - Ss) with (- (W - Ss)) by ring.
  assert (Q: f_rho s * - (W - U) / - (W - Ss) = f_rho s * (W - U) / (W - Ss)) by (unfold Rdiv; rewrite Rinv_opp; ring). rewrite Q.
  assert (Q2: f_p s / (f_rho s * - (W - U)) = - (f_p s / (f_rho s * (W - U)))).
  { unfold Rdiv. replace (f_rho s * - (W - U)) with (- (f_rho s * (W - U))) by ring. rewrite Rinv_opp. ring. }
  rewrite Q2. set (UU := f_rho s * (W - U) / (W - Ss)). set (PP := f_p s / (f_rho s * (W - U))). clearbody U UU PP.
  lcases l Hl; [| | | | |rewrite !comp_ge5 by auto; ring]; cbn [comp Z.eqb Pos.eqb]; ring.
Qed.
Lemma starFlux_zero g Ss s l : (0 <= l)%Z -> starFlux g 0 Ss s l = sideFlux g s l.
Proof.
  intros Hl. unfold starFlux. cbv zeta. lcases l Hl; [| | | | |]; try (cbn [comp Z.eqb Pos.eqb]; ring).
  rewrite comp_ge5 by auto. unfold sideFlux. cbv zeta. rewrite comp_ge5 by auto. ring.
Qed.
Lemma Sstar_rev g A B : f_rho A * f_c A + f_rho B * f_c B <> 0 -> hllcSstar (reverseFace g) B A = - hllcSstar g A B.
Proof.
  intros H. unfold hllcSstar, hllcSL, hllcSR. cbv zeta. rewrite !fn_rev. field; repeat split; intros X; apply H; lra.
Qed.
(** the speeds of the left wave, the contact and the right wave *)
Definition waveSpeeds (g : fgeo) (L Rc : cell) : R * R * R :=
  let UL := faceNormalVelocity g L in let UR := faceNormalVelocity g Rc in
  (UL - c_c L,
   (c_p L - c_p Rc + c_rho L * c_c L * UL + c_rho Rc * c_c Rc * UR) / (c_rho L * c_c L + c_rho Rc * c_c Rc),
   UR + c_c Rc).
Lemma fn_ofCell g c : fn g (ofCell c) = faceNormalVelocity g c.
Proof. unfold fn, ofCell, faceNormalVelocity, vel. cbn [f_u f_v f_w]. vcomp. ring. Qed.
Lemma waves g L Rc : c_rho L * c_c L + c_rho Rc * c_c Rc <> 0 ->
  waveSpeeds g L Rc = (hllcSL g (ofCell L) (ofCell Rc), hllcSstar g (ofCell L) (ofCell Rc), hllcSR g (ofCell L) (ofCell Rc)).
Proof.
  intros H. unfold waveSpeeds, hllcSstar, hllcSL, hllcSR. cbv zeta. rewrite !fn_ofCell. cbn [ofCell f_c f_rho f_p].
  apply (f_equal2 pair); [apply (f_equal2 pair); [reflexivity|]|reflexivity]. field; repeat split; intros X; apply H; lra.
Qed.
Theorem C83_hllc_partial : forall g st l SL Ss SR, (0 <= l)%Z -> physical (st (-1)%Z) -> physical (st 0%Z) ->
  waveSpeeds g (st (-1)%Z) (st 0%Z) = (SL, Ss, SR) -> SL < Ss < SR -> Ss <> 0 ->
  hllc (reverseFace g) (reverseCells st) l = - hllc g st l.
Proof.
  intros g st l SL Ss SR Hl [P1 P2] [P3 P4] HW O1 O2. set (A := st (-1)%Z) in *. set (B := st 0%Z) in *.
  pose proof (Rmult_lt_0_compat _ _ P1 P2). pose proof (Rmult_lt_0_compat _ _ P3 P4).
  rewrite waves in HW by lra. injection HW as W1 W2 W3.
  unfold hllc, reverseCells. cbn [Z.sub Z.add Z.opp Z.pos_sub]. change (-1 - -1)%Z with 0%Z. fold A. fold B.
  unfold hllcFlux. rewrite Sstar_rev by (cbn [ofCell f_rho f_c]; lra). rewrite W2.
  assert (E1: hllcSL (reverseFace g) (ofCell B) (ofCell A) = - SR) by (rewrite <- W3; unfold hllcSL, hllcSR; rewrite fn_rev; ring).
  assert (E2: hllcSR (reverseFace g) (ofCell B) (ofCell A) = - SL) by (rewrite <- W1; unfold hllcSL, hllcSR; rewrite fn_rev; ring).
  rewrite E1, E2, W1, W3. cbv zeta. clear E1 E2 W1 W2 W3.
  repeat (match goal with |- context [if Rle_dec ?x ?y then _ else _] => destruct (Rle_dec x y) end; try lra).
  all: rewrite ?starFlux_rev, ?sideFlux_rev by auto; try reflexivity.
  all: try (replace SL with 0 by lra); try (replace SR with 0 by lra); rewrite ?Ropp_0, ?starFlux_zero, ?sideFlux_rev by auto; try reflexivity.
Qed.

(** Two colliding supersonic streams: both kernels take the flux of whichever block calls itself "left". *)
Definition streamR : cell := exCell 1 20 0 0 1 (2 + 1/2 * (20*20+0*0+0*0)) 10 2.
Definition streamL : cell := exCell 1 (-30) 0 0 1 (2 + 1/2 * ((-30)*(-30)+0*0+0*0)) 10 2.
Definition unitX : fgeo := mkGeo 1 (1,0,0) (1,0,0).
Definition stepCells (a b : cell) : Z -> cell := fun m => if (m <? 0)%Z then a else b.
Theorem C83_hllc_refuted : exists g st, faceVectors g /\ (forall m, coherent (st m) /\ physical (st m)) /\
  forall f, In f [hllc; muscl2hllc] -> f (reverseFace g) (reverseCells st) 0%Z <> - f g st 0%Z.
Proof.
  exists unitX, (stepCells streamR streamL).
  split; [unfold faceVectors, unitX; cbn [gs gS gn]; vext; ring|].
  split. { intros m. unfold stepCells. destruct (m <? 0)%Z; (split; [apply exCell_coherent; lra|unfold physical; cbn; lra]). }
  assert (Hm: forall (st : Z -> cell) a b, st (-2)%Z = a -> st (-1)%Z = a -> st 0%Z = b -> st 1%Z = b ->
     forall F : cell -> R, useL (limL (fun m => F (st m))) (fun m => F (st m)) = F a /\ useR (limR (fun m => F (st m))) (fun m => F (st m)) = F b).
  { intros st a b E1 E2 E3 E4 F. unfold useL, useR, limL, limR. rewrite E1, E2, E3, E4. split; [|ring].
    unfold ratio. destruct (Req_EM_T (F b - F a) 0) as [Z|Z]; [rewrite Z; ring|].
    replace ((F a - F a) / (F b - F a)) with 0 by (unfold Rdiv; ring). unfold limiter, theta.
    replace (Rmin (Rmin (2 * 0) ((1 + 0) / 2)) 2) with 0 by (unfold Rmin; repeat destruct (Rle_dec _ _); lra). rewrite Rmax_left by lra. ring. }
  assert (Hs: forall st a b, st (-2)%Z = a -> st (-1)%Z = a -> st 0%Z = b -> st 1%Z = b ->
     (f_rho (musclState true st false) = c_rho a /\ f_u (musclState true st false) = c_u a /\ f_v (musclState true st false) = c_v a /\ f_w (musclState true st false) = c_w a) /\
     f_c (musclState true st false) = useL (limL (fun m => c_re (st m) / c_rho (st m))) (fun m => c_c (st m))).
  { intros st a b E1 E2 E3 E4. pose proof (Hm st a b E1 E2 E3 E4) as X. unfold musclState. cbv zeta. cbn [f_rho f_u f_v f_w f_c].
    rewrite !(proj1 (X _)). auto. }
  assert (V: forall f g st a b, In f [hllc; muscl2hllc] -> st (-2)%Z = a -> st (-1)%Z = a -> st 0%Z = b -> st 1%Z = b -> c_re a / c_rho a = 2 -> c_re b / c_rho b = 2 -> c_c b = c_c a ->
     0 <= faceNormalVelocity g a - c_c a -> f g st 0%Z = faceNormalVelocity g a * c_rho a * gS g).
  { intros f g st a b Hf E1 E2 E3 E4 R1 R2 R3 Hp. destruct Hf as [<-|[<-|[]]].
    - unfold hllc, hllcFlux, hllcSL. rewrite E2, fn_ofCell. cbn [ofCell f_c]. cbv zeta. destruct (Rle_dec _ _); [|lra].
      unfold sideFlux. cbv zeta. cbn [comp Z.eqb]. now rewrite fn_ofCell.
    - destruct (Hs st a b E1 E2 E3 E4) as [(Q1 & Q2 & Q3 & Q4) Q5].
      assert (FN: fn g (musclState true st false) = faceNormalVelocity g a). { unfold fn. rewrite Q2, Q3, Q4. unfold faceNormalVelocity, vel. vcomp. ring. }
      assert (Q6: useL (limL (fun m => c_re (st m) / c_rho (st m))) (fun m => c_c (st m)) = c_c a).
      { unfold useL. rewrite E2, E3, R3. ring. }
      unfold muscl2hllc, hllcFlux, hllcSL. rewrite FN, Q5, Q6. cbv zeta. destruct (Rle_dec _ _); [|lra].
      unfold sideFlux. cbv zeta. cbn [comp Z.eqb]. now rewrite FN, Q1. }
  intros f Hf.
  rewrite (V f (reverseFace unitX) (reverseCells (stepCells streamR streamL)) streamL streamR Hf); try reflexivity; try (cbn; lra).
  - rewrite (V f unitX (stepCells streamR streamL) streamR streamL Hf); try reflexivity; try (cbn; lra);
    unfold faceNormalVelocity, unitX, reverseFace, opp, vel, streamL, streamR, exCell, c_u, c_v, c_w, c_c, c_rho; cbn [cq cQ ch gn gS gs]; vcomp; lra.
  - unfold faceNormalVelocity, unitX, reverseFace, opp, vel, streamL, streamR, exCell, c_u, c_v, c_w, c_c, c_rho; cbn [cq cQ ch gn gS gs]; vcomp; lra.
Qed.

(** MUSCL-Rusanov limits pressure with the internal-energy limiter of its own side. *)
Definition pcell (p e : R) : cell := exCell 1 0 0 0 p (e + 1/2 * (0*0+0*0+0*0)) 10 e.
Definition ramp : Z -> cell := fun m => pcell (if (m =? 1)%Z then 2 else 1) (10 + IZR m).
Theorem C83_muscl2rusanov_refuted : exists g st, faceVectors g /\ (forall m, (-2 <= m <= 1)%Z -> coherent (st m) /\ physical (st m) /\ 0 < c_p (st m) /\ 0 < c_re (st m)) /\
  muscl2rusanov (reverseFace g) (reverseCells st) 1%Z <> - muscl2rusanov g st 1%Z.
Proof.
  exists unitX, ramp.
  split; [unfold faceVectors, unitX; cbn [gs gS gn]; vext; ring|].
  split. { intros m Hm. unfold ramp, pcell. split; [apply exCell_coherent; lra|]. split; [unfold physical; cbn; lra|]. split; cbn; [destruct (m =? 1)%Z; lra|].
    assert (-2 <= IZR m) by (apply IZR_le; lia). lra. }
  assert (L1: limiter ((10 + 0 - (10 + -1)) / (10 + 1 - (10 + 0))) = 1).
  { replace ((10 + 0 - (10 + -1)) / (10 + 1 - (10 + 0))) with 1 by field. unfold limiter, theta, Rmax, Rmin. repeat destruct (Rle_dec _ _); lra. }
  assert (Hc: forall g st, (forall m, c_u (st m) = 0 /\ c_v (st m) = 0 /\ c_w (st m) = 0) ->
    muscl2rusanov g st 1%Z = 5/10 * (f_p (musclState false st true) * vx (gs g) + f_p (musclState false st false) * vx (gs g))).
  { intros g st H0.
    assert (Z0: forall b, f_u (musclState false st b) = 0 /\ f_v (musclState false st b) = 0 /\ f_w (musclState false st b) = 0).
    { intros b. unfold musclState. cbv zeta. cbn [f_u f_v f_w].
      assert (X: forall (F : cell -> R), (forall m, F (st m) = 0) -> forall phi, (if b then useR else useL) phi (fun m => F (st m)) = 0).
      { intros F HF phi. destruct b; unfold useR, useL; rewrite !HF; ring. }
      rewrite (X c_u), (X c_v), (X c_w) by (intros m; apply H0). auto. }
    unfold muscl2rusanov, rusanovFlux. cbv zeta. cbn [comp Z.eqb Pos.eqb].
    destruct (Z0 true) as (-> & _), (Z0 false) as (-> & _). ring. }
  rewrite !Hc by (intros m; repeat split; reflexivity).
  assert (PR: f_p (musclState false ramp true) = 1/2 /\ f_p (musclState false ramp false) = 1 /\
              f_p (musclState false (reverseCells ramp) true) = 1 /\ f_p (musclState false (reverseCells ramp) false) = 1).
  { unfold musclState, reverseCells. cbv zeta. cbn [f_p]. unfold useR, useL, limR, limL.
    change (-1 - 0)%Z with (-1)%Z. change (-1 - -1)%Z with 0%Z. change (-1 - -2)%Z with 1%Z. change (-1 - 1)%Z with (-2)%Z.
    unfold ramp, pcell, exCell, c_re, c_rho, c_p. cbn [cq cQ ch Z.eqb Pos.eqb]. repeat split.
    - replace ((10 + 0) / 1 - (10 + -1) / 1) with 1 by field. replace ((10 + 1) / 1 - (10 + 0) / 1) with 1 by field.
      unfold ratio. destruct (Req_EM_T 1 0); [lra|]. unfold limiter, theta, Rmax, Rmin. repeat destruct (Rle_dec _ _); lra.
    - ring.
    - ring.
    - ring. }
  destruct PR as (-> & -> & -> & ->). unfold unitX, reverseFace, opp. cbn [gs]. vcomp. lra.
Qed.

(** which cells each kernel reads *)
Lemma reads1 f : In f [KEEP; KEEPpe; KEPaEC; centralDifference; rusanov; ausmPlusUp; hllc] -> reads 1 f.
Proof.
  intros Hf g st st' l H. pose proof (H 0%Z ltac:(lia)) as E0. pose proof (H (-1)%Z ltac:(lia)) as E1.
  repeat (destruct Hf as [<-|Hf]); [| | | | | | |destruct Hf];
    unfold KEEP, KEEPpe, KEPaEC, centralDifference, rusanov, ausmPlusUp, hllc; now rewrite E0, E1.
Qed.
Lemma reads_mono h h' f : (h <= h')%Z -> reads h f -> reads h' f.
Proof. intros Hh R g st st' l H. apply R. intros m Hm. apply H. lia. Qed.
Lemma reads2 : reads 2 fourthOrderKEEP.
Proof.
  intros g st st' l H. pose proof (H 0%Z ltac:(lia)) as E0. pose proof (H (-1)%Z ltac:(lia)) as E1. pose proof (H 1%Z ltac:(lia)) as E2. pose proof (H (-2)%Z ltac:(lia)) as E3.
  unfold fourthOrderKEEP. cbv zeta. rewrite !keepSum_eq. unfold comp. rewrite !keepSum_eq. rewrite E0, E1, E2, E3. reflexivity.
Qed.
(** the kernels and the conditions under which the interface theorem applies: kernel, layers, states *)
Definition symmetricKernels : list (flux1 * Z * (cell -> Prop)) :=
  [(KEEP, 1%Z, fun _ => True); (KEEPpe, 1%Z, fun _ => True); (KEPaEC, 1%Z, fun _ => True); (centralDifference, 1%Z, fun _ => True);
   (fourthOrderKEEP, 2%Z, fun _ => True); (rusanov, 1%Z, fun _ => True); (ausmPlusUp, 1%Z, physical)].
Lemma symmetric_ok f h P : In (f, h, P) symmetricKernels -> reads h f /\ antisymmetricOn P h f.
Proof.
  intros H.
  assert (X: forall f h, antisymmetric f -> antisymmetricOn (fun _ => True) h f) by (intros f' h' A g st l Hl _; now apply A).
  repeat (destruct H as [E|H]; [injection E as <- <- <-; split; [try (apply reads1; cbn [In]; tauto); try apply reads2|
      try (apply X; first [apply rusanov_rev|apply C28_central_antisymmetric; cbn [In]; tauto]); try apply C83_ausm_antisymmetric]|]). destruct H.
Qed.

(** C28.  Two blocks looking at a shared face from their own sides compute the same transfer: for every
    connection of a conforming grid, every orientation of equal handedness, every pair of glued faces. *)
Theorem C28_same_transfer : forall f h P ng w X cells l,
  In (f, h, P) symmetricKernels -> conforming ng w -> (forall A f B o, joined w A f B o -> rightHanded o) ->
  sharedNodes ng w X -> sharedCells ng h w cells -> (forall n i j k, P (cells n i j k)) -> (0 <= l)%Z ->
  sameTransfer ng w (fun n => blockFlux f (X n) (cells n)) l.
Proof. intros f h P ng w X cells l Hf HC RH SN SC HP Hl. destruct (symmetric_ok f h P Hf) as [R A]. eapply shared_transfer; eauto. Qed.

(** C84.  End to end: exchange the halos, compute the fluxes, apply them.  The volume-weighted change of
    every conserved component, summed over all blocks of all ranks, is minus the outflow through the
    faces that are not connected. *)
Theorem C84_global_conservation : forall f h P ng ne w cw X (st st' : state cell) phi l,
  In (f, h, P) symmetricKernels -> (h <= ng)%Z -> conforming ng w -> (forall A f B o, joined w A f B o -> rightHanded o) ->
  (forall A f B o s, joined w A f B o -> outward (nface f) s -> (ng < dim (sb_dims B) (fst (o (fst s))))%Z) ->
  sharedNodes ng w X -> setupAll ng w = Some cw -> communicate ng KCcAll cw st = Some st' ->
  (forall n i j k, P (st' n i j k)) -> (0 <= l < ne)%Z ->
  sumR (fun A => sum3 (cellLo ng) (cellHi (sb_dims A) ng) (fun i j k =>
          volume (X (num A)) i j k * advectiveRHS NoShock (sb_dims A) ng ne (volume (X (num A))) phi (blockFlux f (X (num A)) (st' (num A))) None i j k l)) (blocksOf w) =
  - sumR (fun A => sumR (fun fc => outflow (sb_dims A) ng (blockFlux f (X (num A)) (st' (num A))) l (dirOf (nface fc))) (boundaryFaces A)) (blocksOf w).
Proof.
  intros f h P ng ne w cw X st st' phi l Hf Hh HC RH WD SN ES EC HP Hl.
  pose proof (exchange_shares ng h w cw st st' HC Hh WD ES EC) as SC.
  pose proof (C28_same_transfer f h P ng w X st' l Hf HC RH SN SC HP ltac:(lia)) as ST.
  pose proof (C24_interfaces_cancel ng ne w (fun n => blockFlux f (X n) (st' n)) (fun n => volume (X n)) (fun _ => dQzero) l HC ST Hl) as C24.
  rewrite <- C24.
  - apply sumR_ext. intros A HA. unfold totalChange. cbv beta. rewrite !sum3_pts. apply sumR_ext. intros [[i j] k] _. unfold at3. cbn [fst snd].
    unfold advectiveRHS, dQzero. ring.
  - intros A HA i j k Hi. pose proof tiny_pos. unfold volume, clip. pose proof (Rmax_r (rawVolume (X (num A)) i j k) tiny). lra.
Qed.

(** The hypotheses are met by the two-block grid of P_Halo (mixed orientation "534", plus a periodic
    self-connection) with unit-cube geometry and a non-uniform flow. *)
Definition exX : Z -> nodes := fun n i j k => if (n =? 0)%Z then (IZR i, IZR j, IZR k) else (13 - IZR j, IZR k, 9 - IZR i).
Lemma ex_joined A f B o : joined exW A f B o ->
  (A = exA /\ B = exB /\ nface f = 2%Z /\ forall a, o a = oAB a) \/ (A = exB /\ B = exA /\ nface f = 4%Z /\ forall a, o a = oBA a) \/
  (A = exB /\ B = exB /\ (nface f = 5%Z \/ nface f = 6%Z) /\ forall a, o a = oId a).
Proof.
  intros (HA & Hf & HB & En & L & Eo). destruct HA as [<-|[<-|[]]]; simpl in Hf;
  repeat (destruct Hf as [<-|Hf]; [simpl in En, Eo; try discriminate En|]); try destruct Hf; injection En as En; injection Eo as E1 E2 E3;
  (destruct HB as [<-|[<-|[]]]; try discriminate En).
  - left. repeat split; auto. apply L_Halo3.show_inj. unfold show. now rewrite <- E1, <- E2, <- E3.
  - right; left. repeat split; auto. apply L_Halo3.show_inj. unfold show. now rewrite <- E1, <- E2, <- E3.
  - right; right. repeat split; auto. apply L_Halo3.show_inj. unfold show. now rewrite <- E1, <- E2, <- E3.
  - right; right. repeat split; auto. apply L_Halo3.show_inj. unfold show. now rewrite <- E1, <- E2, <- E3.
Qed.
Example C84_nonvacuous : conforming 2 exW /\ (forall A f B o, joined exW A f B o -> rightHanded o) /\
  (forall A f B o s, joined exW A f B o -> outward (nface f) s -> (2 < dim (sb_dims B) (fst (o (fst s))))%Z) /\
  sharedNodes 2 exW exX /\ (exists cw, setupAll 2 exW = Some cw /\ forall st : state cell, exists st', communicate 2 KCcAll cw st = Some st').
Proof.
  split; [exact ex_conforming|]. split; [|split; [|split]].
  - intros A f B o H. unfold rightHanded. destruct (ex_joined _ _ _ _ H) as [(_ & _ & _ & E)|[(_ & _ & _ & E)|(_ & _ & _ & E)]]; rewrite !E; reflexivity.
  - intros A f B o s H Ou. destruct (ex_joined _ _ _ _ H) as [(-> & -> & Ef & E)|[(-> & -> & Ef & E)|(-> & -> & Ef & E)]]; rewrite E;
    destruct s as [[] ?]; vm_compute; reflexivity.
  - intros A f B o s H Ou. destruct (ex_joined _ _ _ _ H) as [(-> & -> & Ef & E)|[(-> & -> & Ef & E)|(-> & -> & Ef & E)]].
    + exists (0,0,0). rewrite Ef in Ou. cbn [outward] in Ou. subst s. intros [[i j] k] [[i' j'] k'] _ _ G.
      pose proof (G I) as G1. pose proof (G J) as G2. pose proof (G K) as G3. cbv zeta in G1, G2, G3. unfold act, facePlane in G1, G2, G3. cbn [fst snd axis_eqb] in G1, G2, G3. rewrite !E in G1, G2, G3. cbn [oAB oBA oId fst snd axis_eqb dim ni nj nk sb_dims exA exB flip negb pos co] in G1, G2, G3.
      assert (E1: i' = (9 - k)%Z) by lia. assert (E2: j' = (13 - i)%Z) by lia. assert (E3: k' = j) by lia.
      unfold at3, exX. cbn [fst snd num sb_topo exA exB nblki Z.eqb]. rewrite E1, E2, E3, !minus_IZR. vext; ring.
    + exists (0,0,0). rewrite Ef in Ou. cbn [outward] in Ou. subst s. intros [[i j] k] [[i' j'] k'] _ _ G.
      pose proof (G I) as G1. pose proof (G J) as G2. pose proof (G K) as G3. cbv zeta in G1, G2, G3. unfold act, facePlane in G1, G2, G3. cbn [fst snd axis_eqb] in G1, G2, G3. rewrite !E in G1, G2, G3. cbn [oAB oBA oId fst snd axis_eqb dim ni nj nk sb_dims exA exB flip negb pos co] in G1, G2, G3.
      assert (E1: k' = (9 - i)%Z) by lia. assert (E2: i' = (13 - j)%Z) by lia. assert (E3: j' = k) by lia.
      unfold at3, exX. cbn [fst snd num sb_topo exA exB nblki Z.eqb]. rewrite E1, E2, E3, !minus_IZR. vext; ring.
    + destruct Ef as [Ef|Ef]; rewrite Ef in Ou; cbn [outward] in Ou; subst s; [exists (0,4,0)|exists (0,-4,0)]; intros [[i j] k] [[i' j'] k'] _ _ G;
      pose proof (G I) as G1; pose proof (G J) as G2; pose proof (G K) as G3; cbv zeta in G1, G2, G3; unfold act, facePlane in G1, G2, G3; cbn [fst snd axis_eqb] in G1, G2, G3; rewrite !E in G1, G2, G3; cbn [oAB oBA oId fst snd axis_eqb dim ni nj nk sb_dims exA exB flip negb pos co] in G1, G2, G3;
      assert (E1: i' = i) by lia; assert (E2: j' = j) by lia; [assert (E3: k' = (k + 4)%Z) by lia|assert (E3: k' = (k + -4)%Z) by lia];
      unfold at3, exX; cbn [fst snd num sb_topo exA exB nblki Z.eqb]; rewrite E1, E2, E3, !plus_IZR; vext; ring.
  - destruct (C06_cell_halo_exchange 2 exW ex_conforming) as (cw & E1 & H). exists cw. split; auto. intros st. destruct (H _ st) as (st' & E2 & _). eauto.
Qed.
Example C83_nonvacuous : antisymmetric rusanov /\ rusanov unitX (stepCells streamR streamL) 0%Z <> 0 /\ physical streamR /\ physical streamL /\
  exists SL Ss SR, waveSpeeds unitX oblique streamR = (SL, Ss, SR) /\ SL < Ss < SR /\ Ss <> 0.
Proof.
  split; [exact rusanov_rev|]. split; [|split; [unfold physical; cbn; lra|split; [unfold physical; cbn; lra|]]].
  - unfold rusanov, rusanovFlux, stepCells. cbv zeta. cbn [comp Z.eqb Z.ltb Z.compare]. rewrite !fn_ofCell.
    cbn [ofCell f_rho]. set (lam := rusanovLam _ _ _). clearbody lam.
    unfold faceNormalVelocity, unitX, vel, streamL, streamR, exCell, c_u, c_v, c_w, c_c, c_rho. cbn [cq cQ ch gn gS gs]. vcomp. lra.
  - eexists. eexists. eexists. split; [reflexivity|]. unfold faceNormalVelocity, unitX, vel, oblique, streamR, exCell, c_p, c_u, c_v, c_w, c_c, c_rho. cbn [cq cQ ch gn]. vcomp.
    unfold Rdiv. replace (/ (1 * 10 + 1 * 10)) with (/ 20) by (f_equal; ring). lra.
Qed.
Print Assumptions C84_global_conservation.
