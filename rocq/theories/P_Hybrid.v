(** C117: hybrid switching over all blocks, end to end. *)
From Coq Require Import Reals ZArith String List Bool Lia Lra.
From Verif Require Import M_Topology S_Topology M_Halo S_Halo M_Grid M_Metrics S_Metrics S_Sum M_Flux S_Flux M_FluxKernels S_FluxKernels S_Interface S_Interface2 M_Control M_Diff M_Rhs
  L_Grid3 L_Vec L_Flux1 L_Flux2 L_FluxK1 L_FluxK2 L_Interface1 L_Interface2 L_Interface3 P_Metrics P_Halo P_Flux P_FluxKernels P_FluxSym.
Import ListNotations.
Open Scope R_scope.
Local Notation K := S_Topology.K.

Definition axisNo (a : axis) : Z := match a with I => 0%Z | J => 1%Z | K => 2%Z end.
Lemma faceSwitch_shift (phi : array4) a p : at3 (faceSwitch phi a) p = Rmax (at3 (phi : array3 (Z -> R)) (shift p a (-1)) (axisNo a)) (at3 (phi : array3 (Z -> R)) (shift p a 0) (axisNo a)).
Proof.
  destruct p as [[i j] k]. destruct a; cbn [faceSwitch axisNo]; unfold at3, shift, mkpt; cbn [co fst snd axis_eqb]; rewrite Z.add_0_r; reflexivity.
Qed.
Lemma fluxOf_combine a F b G l x p : at3 (fluxOf (S_Flux.combine a F b G) l x) p = at3 (a x) p * at3 (fluxOf F l x) p + at3 (b x) p * at3 (fluxOf G l x) p.
Proof. destruct p as [[i j] k]. destruct x; reflexivity. Qed.
(** the blended flux of the hybrid scheme *)
Definition blended (phi : array4) (F1 F2 : fluxes) : fluxes := S_Flux.combine (compl (faceSwitch phi)) F1 (faceSwitch phi) F2.
Lemma blended_transfer ng w (F1 F2 : Z -> fluxes) (phi : state (Z -> R)) l : axisKept w -> sharedValues ng 1 w phi ->
  sameTransfer ng w F1 l -> sameTransfer ng w F2 l -> sameTransfer ng w (fun n => blended (phi n) (F1 n) (F2 n)) l.
Proof.
  intros AK SV S1 S2 A f B o s p p' Jn Ou Hp G.
  pose proof (S1 A f B o s p p' Jn Ou Hp G) as E1. pose proof (S2 A f B o s p p' Jn Ou Hp G) as E2.
  unfold blended. rewrite !fluxOf_combine. 
  assert (C : forall (W : axis -> array3 R) a q, at3 (compl W a) q = 1 - at3 (W a) q) by (intros W a [[i j] k]; reflexivity). rewrite !C.
  assert (E : at3 (faceSwitch (phi (num A)) (fst s)) p = at3 (faceSwitch (phi (num B)) (fst (o (fst s)))) p').
  { rewrite !faceSwitch_shift. rewrite (beside ng 1 w phi A f B o s p p' (-1) SV Jn Ou Hp G), (beside ng 1 w phi A f B o s p p' 0 SV Jn Ou Hp G) by lia.
    rewrite (AK A f B o s Jn Ou). destruct (snd (o (fst s))); [reflexivity|]. cbn [Z.sub Z.opp Z.add Z.pos_sub Pos.add]. apply Rmax_comm. }
  rewrite E1, E2, E. ring.
Qed.
(** C117.  Exchange the cells, compute any cell switches, exchange them, compute both fluxes and apply them with the
    complementary weights: if every connection joins faces normal to the same index axis, the volume-weighted change of
    every conserved component summed over all blocks is minus the outflow of the blended flux through the faces that are
    not connected. *)
Theorem C117_hybrid_conserves : forall f1 h1 P1 f2 h2 P2 ng ne w cw X (st st' : state cell) (phi phi' : state (Z -> R)) l,
  In (f1, h1, P1) symmetricKernels -> In (f2, h2, P2) symmetricKernels -> (h1 <= ng)%Z -> (h2 <= ng)%Z ->
  conforming ng w -> (forall A f B o, joined w A f B o -> rightHanded o) ->
  (forall A f B o s, joined w A f B o -> outward (nface f) s -> (ng < dim (sb_dims B) (fst (o (fst s))))%Z) ->
  axisKept w -> sharedNodes ng w X -> setupAll ng w = Some cw ->
  communicate ng KCcAll cw st = Some st' -> communicate ng KCcFirst cw phi = Some phi' ->
  (forall n i j k, P1 (st' n i j k)) -> (forall n i j k, P2 (st' n i j k)) -> (0 <= l < ne)%Z ->
  sumR (fun A => sum3 (cellLo ng) (cellHi (sb_dims A) ng) (fun i j k =>
          volume (X (num A)) i j k * advectiveRHS Hybrid (sb_dims A) ng ne (volume (X (num A))) (phi' (num A))
            (blockFlux f1 (X (num A)) (st' (num A))) (Some (blockFlux f2 (X (num A)) (st' (num A)))) i j k l)) (blocksOf w) =
  - sumR (fun A => sumR (fun fc => outflow (sb_dims A) ng (blended (phi' (num A)) (blockFlux f1 (X (num A)) (st' (num A))) (blockFlux f2 (X (num A)) (st' (num A)))) l (dirOf (nface fc)))
       (boundaryFaces A)) (blocksOf w).
Proof.
  intros f1 h1 P1 f2 h2 P2 ng ne w cw X st st' phi phi' l Hf1 Hf2 Hh1 Hh2 HC RH WD AK SN ES EC EP HP1 HP2 Hl.
  pose proof (exchange_shares ng h1 w cw st st' HC Hh1 WD ES EC) as SC1. pose proof (exchange_shares ng h2 w cw st st' HC Hh2 WD ES EC) as SC2.
  pose proof (exchange_shares_any KCcFirst ng 1 w cw phi phi' HC ltac:(discriminate) ltac:(cbn [nLayers]; lia) WD ES EP) as SP.
  pose proof (C28_same_transfer f1 h1 P1 ng w X st' l Hf1 HC RH SN SC1 HP1 ltac:(lia)) as ST1.
  pose proof (C28_same_transfer f2 h2 P2 ng w X st' l Hf2 HC RH SN SC2 HP2 ltac:(lia)) as ST2.
  pose proof (blended_transfer ng w _ _ phi' l AK SP ST1 ST2) as ST.
  assert (VN : forall A, In A (blocksOf w) -> volumesNonzero (sb_dims A) ng (volume (X (num A)))).
  { intros A HA i j k Hi. pose proof tiny_pos. unfold volume, clip. pose proof (Rmax_r (rawVolume (X (num A)) i j k) tiny). lra. }
  pose proof (C24_interfaces_cancel ng ne w _ (fun n => volume (X n)) (fun _ => dQzero) l HC ST Hl VN) as C24.
  rewrite <- C24. apply sumR_ext. intros A HA. unfold totalChange. cbv beta. rewrite !sum3_pts. apply sumR_ext. intros [[i j] k] Hin. unfold at3. cbn [fst snd].
  assert (Hi : interiorCell (sb_dims A) ng i j k). { rewrite pts_in in Hin. pose proof (Hin I). pose proof (Hin J). pose proof (Hin K). unfold interiorCell. cbn [co fst snd cellLo cellHi] in *. unfold cellLo, cellHi in *. cbn [co fst snd] in *. lia. }
  rewrite C25_hybrid_is_a_blend; auto. fold (blended (phi' (num A)) (blockFlux f1 (X (num A)) (st' (num A))) (blockFlux f2 (X (num A)) (st' (num A)))).
  unfold applyFlux, dQzero. rewrite inCC_in by auto. field. apply VN; auto.
Qed.

(** Connections that keep the axis: the i faces of two blocks, the second upside down ("156"). *)
Definition keptA : sblock := mkSBlock (mkBlock 0
  (map (fun k => if k =? 2 then mkFace 2 None "b0" (Some 7) (Some "156"%string) else mkFace k None "adiabaticNoSlipWall" None None) [1;2;3;4;5;6])%Z) (mkDims 4 3 5).
Definition keptB : sblock := mkSBlock (mkBlock 7
  (map (fun k => if k =? 1 then mkFace 1 None "b0" (Some 0) (Some "156"%string) else mkFace k None "adiabaticNoSlipWall" None None) [1;2;3;4;5;6])%Z) (mkDims 6 3 5).
Definition keptW : list (list sblock) := [[keptA]; [keptB]].
Definition oUp : orient := fun a => match a with I => (I,true) | J => (J,false) | K => (K,false) end.
Definition keptX : Z -> nodes := fun n i j k => if (n =? 0)%Z then (IZR i, IZR j, IZR k) else (IZR i + 3, 6 - IZR j, 8 - IZR k).
Lemma keptW_conforming : conforming 2 keptW.
Proof.
  assert (LA: legal oUp) by (intros [] []; simpl; congruence).
  split; [lia|]. split.
  { cbv. constructor; [cbv; intuition discriminate|constructor; [cbv; tauto|constructor]]. }
  split.
  - intros A [<-|[<-|[]]]; split; try reflexivity; intros []; reflexivity.
  - intros A f n [<-|[<-|[]]] Hf En; simpl in Hf;
    repeat (destruct Hf as [<-|Hf]; [simpl in En; try discriminate En|]); try destruct Hf; injection En as <-.
    + exists keptB, oUp, (mkFace 1 None "b0" (Some 0%Z) (Some "156"%string)), oUp, (I,true).
      repeat split; simpl; auto; try tauto; try (intros [[] []]; reflexivity); intros []; simpl; congruence.
    + exists keptA, oUp, (mkFace 2 None "b0" (Some 7%Z) (Some "156"%string)), oUp, (I,false).
      repeat split; simpl; auto; try tauto; try (intros [[] []]; reflexivity); intros []; simpl; congruence.
Qed.
Lemma kept_joined A f B o : joined keptW A f B o ->
  (A = keptA /\ B = keptB /\ nface f = 2%Z /\ forall a, o a = oUp a) \/ (A = keptB /\ B = keptA /\ nface f = 1%Z /\ forall a, o a = oUp a).
Proof.
  intros (HA & Hf & HB & En & L & Eo). destruct HA as [<-|[<-|[]]]; simpl in Hf;
  repeat (destruct Hf as [<-|Hf]; [simpl in En, Eo; try discriminate En|]); try destruct Hf; injection En as En; injection Eo as E1 E2 E3;
  (destruct HB as [<-|[<-|[]]]; try discriminate En).
  - left. repeat split; auto. apply L_Halo3.show_inj. unfold show. now rewrite <- E1, <- E2, <- E3.
  - right. repeat split; auto. apply L_Halo3.show_inj. unfold show. now rewrite <- E1, <- E2, <- E3.
Qed.
Example C117_nonvacuous : conforming 2 keptW /\ (forall A f B o, joined keptW A f B o -> rightHanded o) /\ axisKept keptW /\
  (forall A f B o s, joined keptW A f B o -> outward (nface f) s -> (2 < dim (sb_dims B) (fst (o (fst s))))%Z) /\ sharedNodes 2 keptW keptX.
Proof.
  split; [exact keptW_conforming|]. split; [|split; [|split]].
  - intros A f B o H. unfold rightHanded. destruct (kept_joined _ _ _ _ H) as [(_ & _ & _ & E)|(_ & _ & _ & E)]; rewrite !E; reflexivity.
  - intros A f B o s H Ou. destruct (kept_joined _ _ _ _ H) as [(_ & _ & _ & E)|(_ & _ & _ & E)]; rewrite !E; destruct s as [[] ?]; reflexivity.
  - intros A f B o s H Ou. destruct (kept_joined _ _ _ _ H) as [(-> & -> & Ef & E)|(-> & -> & Ef & E)]; rewrite E; destruct s as [[] ?]; vm_compute; reflexivity.
  - intros A f B o s H Ou. destruct (kept_joined _ _ _ _ H) as [(-> & -> & Ef & E)|(-> & -> & Ef & E)]; exists (0,0,0); rewrite Ef in Ou; cbn [outward] in Ou; subst s; intros [[i j] k] [[i' j'] k'] _ _ G;
    pose proof (G I) as G1; pose proof (G J) as G2; pose proof (G K) as G3; cbv zeta in G1, G2, G3; unfold act, facePlane in G1, G2, G3; cbn [fst snd axis_eqb] in G1, G2, G3; rewrite !E in G1, G2, G3; cbn [oUp fst snd axis_eqb dim ni nj nk sb_dims keptA keptB flip negb pos co] in G1, G2, G3.
    + assert (E1: i' = (i - 3)%Z) by lia. assert (E2: j' = (6 - j)%Z) by lia. assert (E3: k' = (8 - k)%Z) by lia.
      unfold at3, keptX. cbn [fst snd num sb_topo keptA keptB nblki Z.eqb]. rewrite E1, E2, E3, !minus_IZR. vext; ring.
    + assert (E1: i' = (i + 3)%Z) by lia. assert (E2: j' = (6 - j)%Z) by lia. assert (E3: k' = (8 - k)%Z) by lia.
      unfold at3, keptX. cbn [fst snd num sb_topo keptA keptB nblki Z.eqb]. rewrite E1, E2, E3, !minus_IZR, plus_IZR. vext; ring.
Qed.

(** Where an i face meets a j face the switches are exchanged component by component, so each block blends the two fluxes
    of the shared face with a different weight.  Two blocks of one cell, the +i face of block 0 on the +j face of block 7,
    gas at rest, one pressure except beyond the i faces of block 7, a density step between the blocks, KEEP with Rusanov
    and the Jameson switch: mass is not conserved. *)
Definition turnedA : sblock := mkSBlock (mkBlock 0
  (map (fun k => if k =? 2 then mkFace 2 None "b0" (Some 7) (Some "534"%string) else mkFace k None "constantPressureSubsonicExit" None None) [1;2;3;4;5;6])%Z) (mkDims 2 2 2).
Definition turnedB : sblock := mkSBlock (mkBlock 7
  (map (fun k => if k =? 4 then mkFace 4 None "b0" (Some 0) (Some "642"%string) else mkFace k None "constantPressureSubsonicExit" None None) [1;2;3;4;5;6])%Z) (mkDims 2 2 2).
Definition turnedW : list (list sblock) := [[turnedA]; [turnedB]].
Definition turnedX : Z -> nodes := fun n i j k => if (n =? 0)%Z then (IZR i, IZR j, IZR k) else (4 - IZR j, IZR k, 3 - IZR i).
Definition restCell (r p : R) : cell :=
  mkCell (fun l => if (l =? 0)%Z then r else if (l =? 4)%Z then p * (5/2) else 0) (fun l => if (l =? 0)%Z then p else if (l =? 4)%Z then p / r else 0)
         (fun l => if (l =? 3)%Z then sqrt (14/10 * p / r) else if (l =? 4)%Z then p * (5/2) else 0).
Definition turnedS : state cell := fun n i j k => if (n =? 0)%Z then restCell 1 1 else restCell 2 (if (i =? 1)%Z then 1 else 3).
Lemma turned_conforming : conforming 1 turnedW.
Proof.
  assert (LA: legal oAB) by (intros [] []; simpl; congruence).
  assert (LB: legal oBA) by (intros [] []; simpl; congruence).
  split; [lia|]. split.
  { cbv. constructor; [cbv; intuition discriminate|constructor; [cbv; tauto|constructor]]. }
  split.
  - intros A [<-|[<-|[]]]; split; try reflexivity; intros []; reflexivity.
  - intros A f n [<-|[<-|[]]] Hf En; simpl in Hf;
    repeat (destruct Hf as [<-|Hf]; [simpl in En; try discriminate En|]); try destruct Hf; injection En as <-.
    + exists turnedB, oAB, (mkFace 4 None "b0" (Some 0%Z) (Some "642"%string)), oBA, (I,true).
      repeat split; simpl; auto; try tauto; try (intros [[] []]; reflexivity); intros []; simpl; congruence.
    + exists turnedA, oBA, (mkFace 2 None "b0" (Some 7%Z) (Some "534"%string)), oAB, (J,true).
      repeat split; simpl; auto; try tauto; try (intros [[] []]; reflexivity); intros []; simpl; congruence.
Qed.
Lemma turned_joined A f B o : joined turnedW A f B o ->
  (A = turnedA /\ B = turnedB /\ nface f = 2%Z /\ forall a, o a = oAB a) \/ (A = turnedB /\ B = turnedA /\ nface f = 4%Z /\ forall a, o a = oBA a).
Proof.
  intros (HA & Hf & HB & En & L & Eo). destruct HA as [<-|[<-|[]]]; simpl in Hf;
  repeat (destruct Hf as [<-|Hf]; [simpl in En, Eo; try discriminate En|]); try destruct Hf; injection En as En; injection Eo as E1 E2 E3;
  (destruct HB as [<-|[<-|[]]]; try discriminate En).
  - left. repeat split; auto. apply L_Halo3.show_inj. unfold show. now rewrite <- E1, <- E2, <- E3.
  - right. repeat split; auto. apply L_Halo3.show_inj. unfold show. now rewrite <- E1, <- E2, <- E3.
Qed.
Lemma turned_shared : sharedNodes 1 turnedW turnedX.
Proof.
  intros A f B o s H Ou. destruct (turned_joined _ _ _ _ H) as [(-> & -> & Ef & E)|(-> & -> & Ef & E)]; exists (0,0,0); rewrite Ef in Ou; cbn [outward] in Ou; subst s; intros [[i j] k] [[i' j'] k'] _ _ G;
    pose proof (G I) as G1; pose proof (G J) as G2; pose proof (G K) as G3; cbv zeta in G1, G2, G3; unfold act, facePlane in G1, G2, G3; cbn [fst snd axis_eqb] in G1, G2, G3; rewrite !E in G1, G2, G3; cbn [oAB oBA fst snd axis_eqb dim ni nj nk sb_dims turnedA turnedB flip negb pos co] in G1, G2, G3.
  - assert (E1: i' = (3 - k)%Z) by lia. assert (E2: j' = (4 - i)%Z) by lia. assert (E3: k' = j) by lia.
    unfold at3, turnedX. cbn [fst snd num sb_topo turnedA turnedB nblki Z.eqb]. rewrite E1, E2, E3, !minus_IZR. vext; ring.
  - assert (E1: k' = (3 - i)%Z) by lia. assert (E2: i' = (4 - j)%Z) by lia. assert (E3: j' = k) by lia.
    unfold at3, turnedX. cbn [fst snd num sb_topo turnedA turnedB nblki Z.eqb]. rewrite E1, E2, E3, !minus_IZR. vext; ring.
Qed.
(** what an exchange does on this grid, for data of any type *)
Lemma turned_exchange : exists cw, setupAll 1 turnedW = Some cw /\ forall (V : Type) (k : kind) (s : state V), k = KCcAll \/ k = KCcFirst -> exists s', communicate 1 k cw s = Some s' /\
  s' 0%Z 1%Z 1%Z 1%Z = s 0%Z 1%Z 1%Z 1%Z /\ s' 0%Z 2%Z 1%Z 1%Z = s 7%Z 1%Z 1%Z 1%Z /\ s' 0%Z 0%Z 1%Z 1%Z = s 0%Z 0%Z 1%Z 1%Z /\
  s' 0%Z 1%Z 0%Z 1%Z = s 0%Z 1%Z 0%Z 1%Z /\ s' 0%Z 1%Z 2%Z 1%Z = s 0%Z 1%Z 2%Z 1%Z /\ s' 0%Z 1%Z 1%Z 0%Z = s 0%Z 1%Z 1%Z 0%Z /\ s' 0%Z 1%Z 1%Z 2%Z = s 0%Z 1%Z 1%Z 2%Z /\
  s' 7%Z 1%Z 1%Z 1%Z = s 7%Z 1%Z 1%Z 1%Z /\ s' 7%Z 1%Z 2%Z 1%Z = s 0%Z 1%Z 1%Z 1%Z /\ s' 7%Z 0%Z 1%Z 1%Z = s 7%Z 0%Z 1%Z 1%Z /\ s' 7%Z 2%Z 1%Z 1%Z = s 7%Z 2%Z 1%Z 1%Z /\
  s' 7%Z 1%Z 0%Z 1%Z = s 7%Z 1%Z 0%Z 1%Z /\ s' 7%Z 1%Z 1%Z 0%Z = s 7%Z 1%Z 1%Z 0%Z /\ s' 7%Z 1%Z 1%Z 2%Z = s 7%Z 1%Z 1%Z 2%Z.
Proof.
  eexists. split; [vm_compute; reflexivity|]. intros V k s [-> | ->]; eexists; (split; [reflexivity|]); repeat match goal with |- _ /\ _ => split end; vm_compute; reflexivity.
Qed.

Lemma zrange_one a : zrange a (a + 1) = [a].
Proof. unfold zrange. replace (Z.to_nat (a + 1 - a)) with 1%nat by lia. cbn [seq map]. f_equal. lia. Qed.
Lemma sum3_one i j k f : sum3 (i, j, k) (i + 1, j + 1, k + 1)%Z f = f i j k.
Proof. unfold sum3, sumZ. cbn [fst snd]. rewrite !zrange_one. cbn [map fold_right]. ring. Qed.
Lemma restCell_facts r p : 0 < r -> coherent (restCell r p) /\ c_u (restCell r p) = 0 /\ c_v (restCell r p) = 0 /\ c_w (restCell r p) = 0 /\ c_rho (restCell r p) = r.
Proof.
  intros Hr. unfold coherent, restCell, c_rho, c_u, c_v, c_w, c_E, c_re, vel, dot3, c_u, c_v, c_w. cbn [cQ cq ch Z.eqb Pos.eqb]. rewrite !vx_mk, !vy_mk, !vz_mk.
  split; [|repeat split; lra]. split; [lra|]. split; [lra|]. split; [lra|]. split; [lra|]. split; [lra|].
  intros l Hl. destruct (Z.eqb_spec l 0); [lia|]. destruct (Z.eqb_spec l 4); [lia|]. ring.
Qed.
Definition turnedDims (n : Z) : dims := mkDims 2 2 2.
Theorem C117_rotated_interfaces_refuted : exists cw (st' : state cell) (phi' : state (Z -> R)),
  conforming 1 turnedW /\ (forall A f B o, joined turnedW A f B o -> rightHanded o) /\
  (forall A f B o s, joined turnedW A f B o -> outward (nface f) s -> (1 < dim (sb_dims B) (fst (o (fst s))))%Z) /\
  sharedNodes 1 turnedW turnedX /\ setupAll 1 turnedW = Some cw /\ (forall n i j k, coherent (turnedS n i j k) /\ 0 < c_rho (turnedS n i j k) /\ 0 < c_p (turnedS n i j k)) /\
  communicate 1 KCcAll cw turnedS = Some st' /\
  communicate 1 KCcFirst cw (switches jameson 1 turnedDims st' (fun _ _ _ _ _ => 0)) = Some phi' /\
  sumR (fun A => sum3 (cellLo 1) (cellHi (sb_dims A) 1) (fun i j k =>
          volume (turnedX (num A)) i j k * advectiveRHS Hybrid (sb_dims A) 1 5 (volume (turnedX (num A))) (phi' (num A))
            (blockFlux KEEP (turnedX (num A)) (st' (num A))) (Some (blockFlux rusanov (turnedX (num A)) (st' (num A)))) i j k 0%Z)) (blocksOf turnedW) <>
  - sumR (fun A => sumR (fun fc => outflow (sb_dims A) 1 (blended (phi' (num A)) (blockFlux KEEP (turnedX (num A)) (st' (num A))) (blockFlux rusanov (turnedX (num A)) (st' (num A)))) 0%Z (dirOf (nface fc)))
       (boundaryFaces A)) (blocksOf turnedW).
Proof.
  destruct turned_exchange as (cw & ES & EX). destruct (EX _ KCcAll turnedS (or_introl eq_refl)) as (st' & EC & S1 & S2 & S3 & S4 & S5 & S6 & S7 & S8 & S9 & S10 & S11 & S12 & S13 & S14).
  destruct (EX _ KCcFirst (switches jameson 1 turnedDims st' (fun _ _ _ _ _ => 0)) (or_intror eq_refl)) as (phi' & EP & P1 & P2 & _ & _ & _ & _ & _ & P8 & P9 & _).
  exists cw, st', phi'. split; [exact turned_conforming|]. split; [|split; [|split; [exact turned_shared|split; [exact ES|split; [|split; [exact EC|split; [exact EP|]]]]]]].
  - intros A f B o H. unfold rightHanded. destruct (turned_joined _ _ _ _ H) as [(_ & _ & _ & E)|(_ & _ & _ & E)]; rewrite !E; reflexivity.
  - intros A f B o s H Ou. destruct (turned_joined _ _ _ _ H) as [(-> & -> & Ef & E)|(-> & -> & Ef & E)]; rewrite E; destruct s as [[] ?]; vm_compute; reflexivity.
  - intros n i j k. unfold turnedS. destruct (n =? 0)%Z; [|destruct (i =? 1)%Z]; (split; [apply restCell_facts; lra|]); unfold restCell, c_rho, c_p; cbn [cQ cq Z.eqb]; lra.
  - assert (VN : forall n, volumesNonzero (mkDims 2 2 2) 1 (volume (turnedX n))).
    { intros n i j k _. pose proof tiny_pos. unfold volume, clip. pose proof (Rmax_r (rawVolume (turnedX n) i j k) tiny). lra. }
    change (blocksOf turnedW) with [turnedA; turnedB]. cbn [map fold_right sumR]. unfold sumR at 1. cbn [map fold_right].
    change (sb_dims turnedA) with (mkDims 2 2 2). change (sb_dims turnedB) with (mkDims 2 2 2). change (num turnedA) with 0%Z. change (num turnedB) with 7%Z.
    change (cellHi (mkDims 2 2 2) 1) with (1 + 1, 1 + 1, 1 + 1)%Z. unfold cellLo. rewrite !sum3_one.
    assert (IC : interiorCell (mkDims 2 2 2) 1 1 1 1) by (unfold interiorCell; cbn [ni nj nk]; lia).
    rewrite !C25_hybrid_is_a_blend by (auto; lia).
    set (FA1 := blockFlux KEEP (turnedX 0) (st' 0%Z)). set (FA2 := blockFlux rusanov (turnedX 0) (st' 0%Z)). set (FB1 := blockFlux KEEP (turnedX 7) (st' 7%Z)). set (FB2 := blockFlux rusanov (turnedX 7) (st' 7%Z)).
    fold (blended (phi' 0%Z) FA1 FA2). fold (blended (phi' 7%Z) FB1 FB2). set (BA := blended (phi' 0%Z) FA1 FA2). set (BB := blended (phi' 7%Z) FB1 FB2).
    unfold sumR. cbn [map fold_right]. 
    change (boundaryFaces turnedA) with (map (fun k => mkFace k None "constantPressureSubsonicExit" None None) [1;3;4;5;6]%Z).
    change (boundaryFaces turnedB) with (map (fun k => mkFace k None "constantPressureSubsonicExit" None None) [1;2;3;5;6]%Z).
    cbn [map fold_right nface]. change (dirOf 1) with (I, false). change (dirOf 2) with (I, true). change (dirOf 3) with (J, false). change (dirOf 4) with (J, true). change (dirOf 5) with (K, false). change (dirOf 6) with (K, true).
    assert (O : forall F, outflow (mkDims 2 2 2) 1 F 0 (I, false) = - iF F 1%Z 1%Z 1%Z 0%Z /\ outflow (mkDims 2 2 2) 1 F 0 (I, true) = iF F 2%Z 1%Z 1%Z 0%Z /\
      outflow (mkDims 2 2 2) 1 F 0 (J, false) = - jF F 1%Z 1%Z 1%Z 0%Z /\ outflow (mkDims 2 2 2) 1 F 0 (J, true) = jF F 1%Z 2%Z 1%Z 0%Z /\
      outflow (mkDims 2 2 2) 1 F 0 (K, false) = - kF F 1%Z 1%Z 1%Z 0%Z /\ outflow (mkDims 2 2 2) 1 F 0 (K, true) = kF F 1%Z 1%Z 2%Z 0%Z).
    { intros F. unfold outflow. cbn [fst snd].
      change (faceLo (mkDims 2 2 2) 1 (I, false)) with (1, 1, 1)%Z. change (faceHi (mkDims 2 2 2) 1 (I, false)) with (1 + 1, 1 + 1, 1 + 1)%Z.
      change (faceLo (mkDims 2 2 2) 1 (J, false)) with (1, 1, 1)%Z. change (faceHi (mkDims 2 2 2) 1 (J, false)) with (1 + 1, 1 + 1, 1 + 1)%Z.
      change (faceLo (mkDims 2 2 2) 1 (K, false)) with (1, 1, 1)%Z. change (faceHi (mkDims 2 2 2) 1 (K, false)) with (1 + 1, 1 + 1, 1 + 1)%Z.
      change (faceLo (mkDims 2 2 2) 1 (I, true)) with (2, 1, 1)%Z. change (faceHi (mkDims 2 2 2) 1 (I, true)) with (2 + 1, 1 + 1, 1 + 1)%Z.
      change (faceLo (mkDims 2 2 2) 1 (J, true)) with (1, 2, 1)%Z. change (faceHi (mkDims 2 2 2) 1 (J, true)) with (1 + 1, 2 + 1, 1 + 1)%Z.
      change (faceLo (mkDims 2 2 2) 1 (K, true)) with (1, 1, 2)%Z. change (faceHi (mkDims 2 2 2) 1 (K, true)) with (1 + 1, 1 + 1, 2 + 1)%Z.
      rewrite !sum3_one. cbn [fluxOf]. repeat split; ring. }
    destruct (O BA) as (OA1 & OA2 & OA3 & OA4 & OA5 & OA6). destruct (O BB) as (OB1 & OB2 & OB3 & OB4 & OB5 & OB6).
    rewrite OA1, OA3, OA4, OA5, OA6, OB1, OB2, OB3, OB5, OB6. cbn [Z.add Pos.add Pos.succ].
    assert (R0 : forall n i j k, c_u (turnedS n i j k) = 0 /\ c_v (turnedS n i j k) = 0 /\ c_w (turnedS n i j k) = 0).
    { intros n i j k. unfold turnedS. destruct (n =? 0)%Z; [|destruct (i =? 1)%Z]; repeat split; apply restCell_facts; lra. }
    (* the two views of the shared face *)
    assert (KA : iF FA1 2%Z 1%Z 1%Z 0%Z = 0).
    { unfold FA1, blockFlux. cbn [iF]. unfold KEEP, keepLike, comp. cbv zeta. cbn [Z.eqb]. unfold stI. cbn [Z.add Z.pos_sub Pos.pred_double]. rewrite S1, S2.
      destruct (R0 0%Z 1%Z 1%Z 1%Z) as (-> & -> & ->), (R0 7%Z 1%Z 1%Z 1%Z) as (-> & -> & ->). ring. }
    assert (KB : jF FB1 1%Z 2%Z 1%Z 0%Z = 0).
    { unfold FB1, blockFlux. cbn [jF]. unfold KEEP, keepLike, comp. cbv zeta. cbn [Z.eqb]. unfold stJ. cbn [Z.add Z.pos_sub Pos.pred_double]. rewrite S8, S9.
      destruct (R0 0%Z 1%Z 1%Z 1%Z) as (-> & -> & ->), (R0 7%Z 1%Z 1%Z 1%Z) as (-> & -> & ->). ring. }
    assert (RA : iF FA2 2%Z 1%Z 1%Z 0%Z < 0).
    { unfold FA2, blockFlux. cbn [iF]. unfold rusanov, rusanovFlux, comp. cbv zeta. cbn [Z.eqb]. unfold stI. cbn [Z.add Z.pos_sub Pos.pred_double]. rewrite S1, S2.
      unfold rusanovLam, fn, ofCell. cbn [f_u f_v f_w f_rho f_c]. destruct (R0 0%Z 1%Z 1%Z 1%Z) as (-> & -> & ->), (R0 7%Z 1%Z 1%Z 1%Z) as (-> & -> & ->).
      rewrite !Rmult_0_r, !Rplus_0_r, Rabs_R0. change (c_rho (turnedS 7%Z 1%Z 1%Z 1%Z)) with 2. change (c_rho (turnedS 0%Z 1%Z 1%Z 1%Z)) with 1.
      assert (0 < gS (geoI (turnedX 0) 2 1 1)). { unfold geoI. cbn [gS]. unfold faceSize, clip. pose proof tiny_pos. match goal with |- 0 < Rmax ?a ?b => pose proof (Rmax_r a b) end. lra. }
      assert (0 < c_c (turnedS 7%Z 1%Z 1%Z 1%Z)). { change (c_c (turnedS 7%Z 1%Z 1%Z 1%Z)) with (sqrt (14/10 * 1 / 2)). apply sqrt_lt_R0. lra. }
      set (m := Rmax _ _). assert (0 < m) by (unfold m; eapply Rlt_le_trans; [|apply Rmax_l]; lra). assert (0 < m * gS (geoI (turnedX 0) 2 1 1)) by nra. lra. }
    (* pressures and switches *)
    assert (J0 : forall l, (0 <= l <= 1)%Z -> switches jameson 1 turnedDims st' (fun _ _ _ _ _ => 0) 0%Z 1%Z 1%Z 1%Z l = 0).
    { intros l Hl. unfold switches, switchKernel. rewrite inCC_in by (auto; lia). cbv zeta. cbn [Z.sub Z.add Z.opp Z.pos_sub Pos.add].
      assert (l = 0 \/ l = 1)%Z as [-> | ->] by lia; cbn [Z.eqb Pos.eqb]; rewrite S1; [rewrite S2, S3|rewrite S4, S5]; unfold jameson, turnedS; cbn [Z.eqb Pos.eqb restCell cq];
      match goal with |- Rabs ?x / _ = 0 => replace x with 0 by ring end; rewrite Rabs_R0; unfold Rdiv; ring. }
    assert (J70 : switches jameson 1 turnedDims st' (fun _ _ _ _ _ => 0) 7%Z 1%Z 1%Z 1%Z 0%Z = 1/2).
    { unfold switches, switchKernel. rewrite inCC_in by (auto; lia). cbv zeta. cbn [Z.sub Z.add Z.opp Z.pos_sub Pos.add Z.eqb]. rewrite S8, S10, S11.
      unfold jameson, turnedS; cbn [Z.eqb Pos.eqb restCell cq]. rewrite !Rabs_pos_eq by lra. lra. }
    assert (J71 : switches jameson 1 turnedDims st' (fun _ _ _ _ _ => 0) 7%Z 1%Z 1%Z 1%Z 1%Z = 0).
    { unfold switches, switchKernel. rewrite inCC_in by (auto; lia). cbv zeta. cbn [Z.sub Z.add Z.opp Z.pos_sub Pos.add Z.eqb Pos.eqb]. rewrite S8, S9, S12.
      unfold jameson, turnedS; cbn [Z.eqb Pos.eqb restCell cq]. match goal with |- Rabs ?x / _ = 0 => replace x with 0 by ring end; rewrite Rabs_R0; unfold Rdiv; ring. }
    assert (VA : iF BA 2%Z 1%Z 1%Z 0%Z = 1/2 * iF FA2 2%Z 1%Z 1%Z 0%Z).
    { unfold BA, blended. cbn [S_Flux.combine iF]. unfold compl. cbn [faceSwitch]. cbn [Z.sub Z.add Z.opp Z.pos_sub Pos.pred_double]. rewrite P1, P2, J70, J0 by lia. rewrite KA. rewrite Rmax_right by lra. lra. }
    assert (VB : jF BB 1%Z 2%Z 1%Z 0%Z = 0).
    { unfold BB, blended. cbn [S_Flux.combine jF]. unfold compl. cbn [faceSwitch]. cbn [Z.sub Z.add Z.opp Z.pos_sub Pos.pred_double]. rewrite P8, P9, J71, J0 by lia. rewrite KB. rewrite Rmax_right by lra. lra. }
    rewrite VA, VB. lra.
Qed.
Print Assumptions C117_hybrid_conserves.
Print Assumptions C117_rotated_interfaces_refuted.
