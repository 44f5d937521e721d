(** C118: the whole flow right-hand side (advective and diffusive) is conservative over all blocks. *)
From Coq Require Import Reals ZArith String List Bool Lia Lra.
From Verif Require Import M_Topology S_Topology M_Halo S_Halo M_Grid M_Metrics S_Metrics S_Sum M_Flux S_Flux M_FluxKernels S_FluxKernels S_Interface S_Interface2 M_Control M_Diff S_Diff M_Rhs
  L_Topology L_Grid3 L_Vec L_Flux1 L_Flux2 L_FluxK1 L_FluxK2 L_Interface1 L_Interface2 L_Interface3 L_RhsEnd P_Metrics P_Halo P_Flux P_FluxKernels P_FluxSym P_Diff P_Hybrid.
Import ListNotations.
Open Scope R_scope.
Local Notation K := S_Topology.K.
Local Notation flipA := S_Topology.flip.

(** the face and the two cells next to a face entry, whatever the direction *)
Definition dfaceOf (X : nodes) (a : axis) (p : pt) : dface := mkDF (areaOf X a p) (faceNormal (areaOf X a p)) (at3 (faceCentreOf X a) p).
Lemma diffFlux_at f X v G l a p : at3 (fluxOf (diffBlockFlux f X v G) l a) p = f (dfaceOf X a p) (at3 (dcellAt X v G) (shift p a (-1))) (at3 (dcellAt X v G) (shift p a 0)) l.
Proof.
  destruct (area_eq X p) as (E1 & E2 & E3). unfold dfaceOf. destruct p as [[i j] k].
  destruct a; [rewrite E1|rewrite E2|rewrite E3]; cbn [fluxOf diffBlockFlux iF jF kF faceCentreOf]; unfold at3, shift, mkpt; cbn [co fst snd axis_eqb]; rewrite Z.add_0_r; reflexivity.
Qed.
Lemma normal_opp a : faceNormal (S_FluxKernels.opp a) = S_FluxKernels.opp (faceNormal a).
Proof. pose proof (geo_opp a) as H. unfold reverseFace in H. cbn [gS gs gn] in H. congruence. Qed.
(** both diffusive kernels: indifferent to translation, antisymmetric in the two sides *)
Definition diffKernel (ne : Z) (f : dface -> dcell -> dcell -> Z -> R) : Prop := f = alphaDampingFlux ne \/ f = diffusiveFlux ne.
Lemma kernel_move ne f t g L Rc l : diffKernel ne f -> f (moveF t g) (moveC t L) (moveC t Rc) l = f g L Rc l.
Proof. intros [-> | ->]; [apply alpha_move|apply diffusive_move]. Qed.
Lemma kernel_flip ne f g L Rc l : diffKernel ne f -> (5 <= ne)%Z -> (0 <= l < ne)%Z -> f (S_Diff.flip g) Rc L l = - f g L Rc l.
Proof. intros [-> | ->] H1 H2; [now apply C104_alphaDamping_antisymmetric|now apply C104_diffusive_antisymmetric]. Qed.

(** Two blocks looking at a shared face from their own sides compute the same diffusive transfer. *)
Theorem C118_diffusive_same_transfer : forall ne f ng w X (v : state dvals) (G : state (Z -> vec)) l,
  diffKernel ne f -> (5 <= ne)%Z -> conforming ng w -> (forall A f B o, joined w A f B o -> rightHanded o) ->
  sharedLayer ng w X -> sharedValues ng 1 w v -> sharedValues ng 1 w G -> (0 <= l < ne)%Z ->
  sameTransfer ng w (fun n => diffBlockFlux f (X n) (v n) (G n)) l.
Proof.
  intros ne f ng w X v G l Hf Hne HC RH SL SV SG Hl A fc B o s p p' Jn Ou Hp Gl.
  destruct (SL A fc B o s Jn Ou) as [t Ht]. assert (L : legal o) by apply Jn. assert (Hng: (0 < ng)%Z) by apply HC.
  assert (Hd: forall a, (0 < dim (sb_dims A) a)%Z). { destruct HC as (_ & _ & HB & _). apply HB. apply Jn. }
  rewrite !diffFlux_at. set (a' := fst (o (fst s))) in *.
  assert (HNf := HNface ng (sb_dims A) (sb_dims B) o s (X (num A)) (X (num B)) t Ht).
  pose proof (area_shared ng (sb_dims A) (sb_dims B) o s (X (num A)) (X (num B)) t p p' L (RH _ _ _ _ Jn) Hd Hp Gl HNf) as EA. fold a' in EA.
  pose proof (faceCentre_shared ng (sb_dims A) (sb_dims B) o s (X (num A)) (X (num B)) t L Hd Ht p p' Hp Gl (RH _ _ _ _ Jn)) as EF. fold a' in EF.
  assert (EC : forall m, (-1 <= m < 1)%Z -> at3 (dcellAt (X (num B)) (v (num B)) (G (num B))) (shift p' a' (if snd (o (fst s)) then m else (-1 - m)%Z)) =
             moveC t (at3 (dcellAt (X (num A)) (v (num A)) (G (num A))) (shift p (fst s) m))).
  { intros m Hm. pose proof (beside ng 1 w v A fc B o s p p' m SV Jn Ou Hp Gl ltac:(lia)) as EV. pose proof (beside ng 1 w G A fc B o s p p' m SG Jn Ou Hp Gl ltac:(lia)) as EG.
    destruct (shift_facts ng (sb_dims A) (sb_dims B) o s p p' L Hp Gl m) as (F1 & F2 & F3).
    pose proof (centre_shared ng (sb_dims A) (sb_dims B) o s (X (num A)) (X (num B)) t L Ht _ _ F1 ltac:(lia) F3) as EX.
    fold a' in EV, EG, EX. revert EV EG EX. generalize (shift p' a' (if snd (o (fst s)) then m else (-1 - m)%Z)) (shift p (fst s) m). intros [[i j] k] [[i' j'] k'] EV EG EX.
    unfold at3 in *. cbn [fst snd] in *. unfold dcellAt, moveC. cbn [dX dRho dq dG dt dh]. rewrite EX, <- EV, <- EG. reflexivity. }
  pose proof (EC (-1)%Z ltac:(lia)) as E1. pose proof (EC 0%Z ltac:(lia)) as E0. unfold dfaceOf at 2. rewrite EA, EF. destruct (snd (o (fst s))).
  - rewrite E1, E0. rewrite Rmult_1_l. symmetry. exact (kernel_move ne f t (dfaceOf (X (num A)) (fst s) p) _ _ l Hf).
  - cbn [Z.sub Z.opp Z.add Z.pos_sub Pos.add] in E0, E1. rewrite E1, E0. rewrite normal_opp.
    change (mkDF (S_FluxKernels.opp (areaOf (X (num A)) (fst s) p)) (S_FluxKernels.opp (faceNormal (areaOf (X (num A)) (fst s) p))) (vadd (at3 (faceCentreOf (X (num A)) (fst s)) p) t))
      with (S_Diff.flip (moveF t (dfaceOf (X (num A)) (fst s) p))).
    rewrite (kernel_flip ne) by auto. rewrite (kernel_move ne) by auto. ring.
Qed.

(** Boundary conditions write only beyond faces that are not connected, which leaves the data next to connected faces
    shared: so do pointwise updates (equation of state, transport properties) and the exchanges themselves. *)
Definition boundaryOnly {C} (ng : Z) (w : list (list sblock)) (c c' : state C) : Prop :=
  forall A p, In A (blocksOf w) -> at3 (c' (num A)) p <> at3 (c (num A)) p ->
    exists f s, In f (faces (sb_topo A)) /\ neighbor f = None /\ outward (nface f) s /\ inHalo KCcAll ng (sb_dims A) s p.
(** wide enough: more cells than halo layers next to every connection *)
Definition wide (ng : Z) (w : list (list sblock)) : Prop :=
  forall A f B o s, joined w A f B o -> outward (nface f) s -> (ng < dim (sb_dims B) (fst (o (fst s))))%Z.
Lemma outward_inj n s s' : outward n s -> outward n s' -> s = s'.
Proof. intros H H'. apply dirOf_outward in H, H'. congruence. Qed.
Lemma beyond_own_face {C} ng h w (c c' : state C) A f B o s q : conforming ng w -> wide ng w -> (h <= ng)%Z -> joined w A f B o -> outward (nface f) s ->
  boundaryOnly ng w c c' -> (forall a, a <> fst s -> interiorAt KCcAll ng (sb_dims A) q a) ->
  (- (2 * h) < pos KCcAll q (fst s) - facePlane ng (sb_dims A) s < 2 * h)%Z -> ~ at3 (c' (num A)) q <> at3 (c (num A)) q.
Proof.
  intros HC HW Hh Jn Ou BO Ht Hd N. destruct (BO A q ltac:(apply Jn) N) as (f2 & s2 & Hf2 & Nf2 & Ou2 & Hq2).
  destruct (conforming_joined ng w A f B o s HC Jn Ou) as (g & o' & V & Jb & Ob & HD).
  assert (Fs: fst (flipA (act o s)) = fst (o (fst s))) by (unfold act; destruct (snd s); reflexivity).
  pose proof (HW _ _ _ _ _ Jb Ob) as W2. assert (F': fst (o' (fst (flipA (act o s)))) = fst s). { rewrite Fs. apply (inverse_facts o o' V). } rewrite F' in W2.
  assert (E2 : fst s2 = fst s).
  { destruct (axis_eqb_spec (fst s2) (fst s)) as [E|E]; auto. exfalso. specialize (Ht _ E). unfold interiorAt, extent in Ht. unfold inHalo in Hq2. destruct (snd s2); lia. }
  assert (S2 : snd s2 = snd s).
  { destruct (Bool.bool_dec (snd s2) (snd s)) as [E|E]; auto. exfalso. unfold inHalo in Hq2. rewrite E2 in Hq2. unfold pos, facePlane in Hd. destruct (snd s), (snd s2); try congruence; lia. }
  assert (s2 = s) by (destruct s, s2; cbn [fst snd] in *; congruence). subst s2.
  (* same direction means same face, but f is connected *)
  destruct HC as (_ & _ & HB & _). destruct (HB A ltac:(apply Jn)) as [HS _].
  assert (nface f2 = nface f).
  { assert (R : forall n m s, (1 <= n <= 6)%Z -> (1 <= m <= 6)%Z -> outward n s -> outward m s -> n = m).
    { intros n m s0 Hn Hm O1 O2. apply dirOf_outward in O1, O2. rewrite <- O1 in O2.
      assert (n = 1 \/ n = 2 \/ n = 3 \/ n = 4 \/ n = 5 \/ n = 6)%Z as Cn by lia. assert (m = 1 \/ m = 2 \/ m = 3 \/ m = 4 \/ m = 5 \/ m = 6)%Z as Cm by lia.
      destruct Cn as [->|[->|[->|[->|[->| ->]]]]], Cm as [->|[->|[->|[->|[->| ->]]]]]; try reflexivity; discriminate O2. }
    assert (IN : forall g, In g (faces (sb_topo A)) -> (1 <= nface g <= 6)%Z).
    { intros g0 Hg. assert (In (nface g0) [1;2;3;4;5;6]%Z) as X by (rewrite <- HS; now apply in_map). cbn [In] in X. lia. }
    apply (R _ _ s); auto. apply IN, Jn. }
  assert (f2 = f).
  { assert (ND : NoDup (map nface (faces (sb_topo A)))) by (rewrite HS; repeat constructor; cbn [In]; intuition discriminate).
    destruct Jn as (_ & Hf & _). clear - ND Hf Hf2 H. induction (faces (sb_topo A)) as [|x xs IH]; [contradiction|]. cbn [map] in ND. apply NoDup_cons_iff in ND. destruct ND as [N1 N2].
    destruct Hf as [->|Hf], Hf2 as [->|Hf2]; auto; exfalso; apply N1; [rewrite <- H|rewrite H]; now apply in_map. }
  subst f2. destruct Jn as (_ & _ & _ & X & _). congruence.
Qed.
Theorem C118_boundary_conditions_keep_sharing : forall (C : Type) ng h w (c c' : state C), (forall x y : C, x = y \/ x <> y) -> conforming ng w -> wide ng w -> (h <= ng)%Z ->
  sharedValues ng h w c -> boundaryOnly ng w c c' -> sharedValues ng h w c'.
Proof.
  intros C ng h w c c' DEC HC HW Hh SV BO A f B o s q q' Jn Ou Ht Hd G.
  assert (EQ : forall A f B o s q, joined w A f B o -> outward (nface f) s -> (forall a, a <> fst s -> interiorAt KCcAll ng (sb_dims A) q a) ->
     (- (2 * h) < pos KCcAll q (fst s) - facePlane ng (sb_dims A) s < 2 * h)%Z -> at3 (c' (num A)) q = at3 (c (num A)) q).
  { intros A0 f0 B0 o0 s0 q0 Jn0 Ou0 Ht0 Hd0. destruct (DEC (at3 (c' (num A0)) q0) (at3 (c (num A0)) q0)) as [E|N]; auto. exfalso.
    exact (beyond_own_face ng h w c c' A0 f0 B0 o0 s0 q0 HC HW Hh Jn0 Ou0 BO Ht0 Hd0 N). }
  rewrite (EQ A f B o s q Jn Ou Ht Hd), (SV A f B o s q q' Jn Ou Ht Hd G). symmetry.
  destruct (conforming_joined ng w A f B o s HC Jn Ou) as (g & o' & V & Jb & Ob & HD).
  assert (L: legal o) by apply Jn. assert (Fs: fst (flipA (act o s)) = fst (o (fst s))) by (unfold act; destruct (snd s); reflexivity).
  apply (EQ B g A o' (flipA (act o s)) q' Jb Ob).
  - intros a' Na'. pose proof (inverse_back o o' L V) as V'. destruct (inverse_facts o' o V' a') as [F1 F2].
    assert (Na: fst (o' a') <> fst s). { intros X. apply Na'. rewrite Fs, <- X. auto. }
    specialize (Ht (fst (o' a')) Na). specialize (G (fst (o' a'))). cbv zeta in G. destruct (axis_eqb_spec (fst (o' a')) (fst s)); [contradiction|].
    rewrite F1, F2 in G. specialize (HD (fst (o' a')) Na). rewrite F1 in HD. unfold interiorAt, extent, pos in *. rewrite HD. destruct (snd (o' a')); lia.
  - specialize (G (fst s)). cbv zeta in G. destruct (axis_eqb_spec (fst s) (fst s)); [|congruence]. rewrite Fs. rewrite <- (Z.opp_involutive (2 * h)) in Hd. destruct (snd (o (fst s))); lia.
Qed.

Definition plus (F G : fluxes) : fluxes := S_Flux.combine (const 1) F (const 1) G.
Lemma plus_transfer ng w (F G : Z -> fluxes) l : sameTransfer ng w F l -> sameTransfer ng w G l -> sameTransfer ng w (fun n => plus (F n) (G n)) l.
Proof.
  intros H1 H2 A f B o s p p' Jn Ou Hp Gl. unfold plus. rewrite !fluxOf_combine. rewrite (H1 A f B o s p p' Jn Ou Hp Gl), (H2 A f B o s p p' Jn Ou Hp Gl).
  assert (E : forall a q, at3 (const 1 a) q = 1) by (intros a [[i j] k]; reflexivity). rewrite !E. ring.
Qed.
(** the advective flux actually applied: the primary one, or the hybrid blend *)
Definition advective (phi : option array4) (F1 F2 : fluxes) : fluxes := match phi with None => F1 | Some p => blended p F1 F2 end.
Definition schemeOf (phi : option array4) : shock := match phi with None => NoShock | Some _ => Hybrid end.
Lemma flow_cell phi d ng ne Jv F1 F2 FD i j k l : interiorCell d ng i j k -> (0 <= l < ne)%Z -> volumesNonzero d ng Jv ->
  Jv i j k * flowRHS (schemeOf phi) d ng ne Jv (match phi with Some p => p | None => fun _ _ _ _ => 0 end) F1 (Some F2) (Some FD) i j k l =
  Jv i j k * applyFlux d ng ne Jv (plus (advective phi F1 F2) FD) dQzero i j k l.
Proof.
  intros Hi Hl HV. unfold flowRHS. destruct phi as [p|]; cbn [schemeOf advective].
  - unfold applyFlux at 1. rewrite inCC_in by auto. cbv zeta. pose proof (C25_hybrid_is_a_blend d ng ne Jv p F1 F2 i j k l Hi Hl HV) as E. cbv zeta in E. fold (blended p F1 F2) in E.
    unfold applyFlux, dQzero. rewrite inCC_in by auto. cbv zeta. unfold plus. cbn [S_Flux.combine iF jF kF]. unfold const. pose proof (HV i j k Hi). 
    set (adv := advectiveRHS Hybrid d ng ne Jv p F1 (Some F2) i j k l) in *. set (b := blended p F1 F2) in *. 
    replace (Jv i j k * (adv + (iF FD i j k l + jF FD i j k l + kF FD i j k l) / Jv i j k - (iF FD (i + 1)%Z j k l + jF FD i (j + 1)%Z k l + kF FD i j (k + 1)%Z l) / Jv i j k))
      with (Jv i j k * adv + ((iF FD i j k l + jF FD i j k l + kF FD i j k l) - (iF FD (i + 1)%Z j k l + jF FD i (j + 1)%Z k l + kF FD i j (k + 1)%Z l))) by (field; auto).
    rewrite E. field. auto.
  - unfold advectiveRHS, applyFlux, dQzero. rewrite !inCC_in by auto. cbv zeta. unfold plus. cbn [S_Flux.combine iF jF kF]. unfold const. field. now apply HV.
Qed.
(** C118.  The volume-weighted change of every conserved component by the whole flow right-hand side, summed over all
    blocks, is minus the outflow of advective plus diffusive flux through the faces that are not connected: for any of the
    symmetric advective kernels, alone or (axis-keeping connections) blended with another by any exchanged switch, and
    either diffusive kernel, whenever cells, properties and gradients next to connected faces are shared. *)
Theorem C118_flow_rhs_conserves : forall f1 h1 P1 f2 h2 P2 fd ng ne w X (c : state cell) (v : state dvals) (G : state (Z -> vec)) (phi : option (state (Z -> R))) l,
  In (f1, h1, P1) symmetricKernels -> In (f2, h2, P2) symmetricKernels -> diffKernel ne fd -> (5 <= ne)%Z ->
  conforming ng w -> (forall A f B o, joined w A f B o -> rightHanded o) -> sharedLayer ng w X ->
  sharedValues ng h1 w c -> sharedValues ng h2 w c -> sharedValues ng 1 w v -> sharedValues ng 1 w G ->
  match phi with None => True | Some p => sharedValues ng 1 w p /\ axisKept w end ->
  (forall n i j k, P1 (c n i j k)) -> (forall n i j k, P2 (c n i j k)) -> (0 <= l < ne)%Z ->
  let ph n := match phi with None => None | Some p => Some (p n : array4) end in
  let F1 n := blockFlux f1 (X n) (c n) in let F2 n := blockFlux f2 (X n) (c n) in let FD n := diffBlockFlux fd (X n) (v n) (G n) in
  sumR (fun A => sum3 (cellLo ng) (cellHi (sb_dims A) ng) (fun i j k => volume (X (num A)) i j k *
          flowRHS (schemeOf (ph (num A))) (sb_dims A) ng ne (volume (X (num A))) (match ph (num A) with Some p => p | None => fun _ _ _ _ => 0 end)
            (F1 (num A)) (Some (F2 (num A))) (Some (FD (num A))) i j k l)) (blocksOf w) =
  - sumR (fun A => sumR (fun fc => outflow (sb_dims A) ng (plus (advective (ph (num A)) (F1 (num A)) (F2 (num A))) (FD (num A))) l (dirOf (nface fc))) (boundaryFaces A)) (blocksOf w).
Proof.
  intros f1 h1 P1 f2 h2 P2 fd ng ne w X c v G phi l Hf1 Hf2 Hfd Hne HC RH SL SC1 SC2 SV SG Hphi HP1 HP2 Hl ph F1 F2 FD.
  assert (SN : sharedNodes ng w X).
  { intros A f B o s Jn Ou. destruct (SL A f B o s Jn Ou) as [t Ht]. exists t. intros q q' Hq E Gq. apply Ht; auto. lia. }
  pose proof (C28_same_transfer f1 h1 P1 ng w X c l Hf1 HC RH SN SC1 HP1 ltac:(lia)) as T1.
  pose proof (C28_same_transfer f2 h2 P2 ng w X c l Hf2 HC RH SN SC2 HP2 ltac:(lia)) as T2.
  pose proof (C118_diffusive_same_transfer ne fd ng w X v G l Hfd Hne HC RH SL SV SG Hl) as TD.
  assert (TA : sameTransfer ng w (fun n => advective (ph n) (F1 n) (F2 n)) l).
  { unfold ph. destruct phi as [p|]; cbn [advective]; [|exact T1]. destruct Hphi as [SP AK]. exact (blended_transfer ng w F1 F2 p l AK SP T1 T2). }
  pose proof (plus_transfer ng w _ _ l TA TD) as ST.
  assert (VN : forall A, In A (blocksOf w) -> volumesNonzero (sb_dims A) ng (volume (X (num A)))).
  { intros A HA i j k Hi. pose proof tiny_pos. unfold volume, clip. pose proof (Rmax_r (rawVolume (X (num A)) i j k) tiny). lra. }
  pose proof (C24_interfaces_cancel ng ne w _ (fun n => volume (X n)) (fun _ => dQzero) l HC ST Hl VN) as C24. fold FD in C24.
  rewrite <- C24. apply sumR_ext. intros A HA. unfold totalChange. cbv beta. rewrite !sum3_pts. apply sumR_ext. intros [[i j] k] Hin. unfold at3. cbn [fst snd].
  assert (Hi : interiorCell (sb_dims A) ng i j k). { rewrite pts_in in Hin. pose proof (Hin I). pose proof (Hin J). pose proof (Hin K). unfold interiorCell, cellLo, cellHi in *. cbn [co fst snd] in *. lia. }
  rewrite flow_cell; auto. change (dQzero i j k l) with 0. unfold F1, F2, FD. ring.
Qed.
(** C118, with the exchanges in the statement: exchange the cells, let boundary conditions write beyond unconnected faces,
    derive properties cell by cell; take any gradients, exchange them, let boundary conditions overwrite them beyond
    unconnected faces; add a subgrid model that looks at the cell, its gradients and its volume. *)
Theorem C118_exchanged_data_is_shared : forall ng w cw (st st' st'' : state cell) (G G' G'' : state (Z -> vec)) (V : state R) (props : cell -> dvals) (sgs : dvals -> (Z -> vec) -> R -> dvals),
  conforming ng w -> wide ng w -> setupAll ng w = Some cw ->
  communicate ng KCcAll cw st = Some st' -> boundaryOnly ng w st' st'' ->
  communicate ng KCcFirst cw G = Some G' -> boundaryOnly ng w G' G'' -> sharedValues ng 1 w V ->
  (forall h, (h <= ng)%Z -> sharedValues ng h w st'') /\ sharedValues ng 1 w G'' /\ sharedValues ng 1 w (fun n i j k => sgs (props (st'' n i j k)) (G'' n i j k) (V n i j k)).
Proof.
  intros ng w cw st st' st'' G G' G'' V props sgs HC HW ES EC BC EG BG SV.
  assert (Hng: (0 < ng)%Z) by apply HC. assert (DEC : forall (C : Type) (x y : C), x = y \/ x <> y) by (intros; apply Classical_Prop.classic).
  assert (S1 : forall h, (h <= ng)%Z -> sharedValues ng h w st'').
  { intros h Hh. apply (C118_boundary_conditions_keep_sharing _ ng h w st' st''); auto. apply (exchange_shares_any KCcAll ng h w cw st st'); auto; discriminate. }
  assert (S2 : sharedValues ng 1 w G'').
  { apply (C118_boundary_conditions_keep_sharing _ ng 1 w G' G''); auto; [lia|]. apply (exchange_shares_any KCcFirst ng 1 w cw G G'); auto; [discriminate|cbn [nLayers]; lia]. }
  split; [exact S1|]. split; [exact S2|].
  pose proof (sharedValues_pair ng 1 w _ _ (sharedValues_pair ng 1 w _ _ (S1 1%Z ltac:(lia)) S2) SV) as SP.
  exact (sharedValues_map ng 1 w _ (fun x => sgs (props (fst (fst x))) (snd (fst x)) (snd x)) SP).
Qed.
(** The geometric hypothesis is met by both two-block grids of P_Hybrid (one with an i face on a j face). *)
Example C118_nonvacuous : sharedLayer 2 keptW keptX /\ sharedLayer 1 turnedW turnedX /\ wide 2 keptW /\ wide 1 turnedW.
Proof.
  split; [|split; [|split; [exact (proj1 (proj2 (proj2 (proj2 C117_nonvacuous))))|]]].
  - intros A f B o s H Ou. destruct (kept_joined _ _ _ _ H) as [(-> & -> & Ef & E)|(-> & -> & Ef & E)]; exists (0,0,0); rewrite Ef in Ou; cbn [outward] in Ou; subst s; intros [[i j] k] [[i' j'] k'] _ _ G;
    pose proof (G I) as G1; pose proof (G J) as G2; pose proof (G K) as G3; cbv zeta in G1, G2, G3; unfold act, facePlane in G1, G2, G3; cbn [fst snd axis_eqb] in G1, G2, G3; rewrite !E in G1, G2, G3; cbn [oUp fst snd axis_eqb dim ni nj nk sb_dims keptA keptB flipA negb pos co] in G1, G2, G3.
    + assert (E1: i' = (i - 3)%Z) by lia. assert (E2: j' = (6 - j)%Z) by lia. assert (E3: k' = (8 - k)%Z) by lia.
      unfold at3, keptX. cbn [fst snd num sb_topo keptA keptB nblki Z.eqb]. rewrite E1, E2, E3, !minus_IZR. vext; ring.
    + assert (E1: i' = (i + 3)%Z) by lia. assert (E2: j' = (6 - j)%Z) by lia. assert (E3: k' = (8 - k)%Z) by lia.
      unfold at3, keptX. cbn [fst snd num sb_topo keptA keptB nblki Z.eqb]. rewrite E1, E2, E3, !minus_IZR, plus_IZR. vext; ring.
  - intros A f B o s H Ou. destruct (turned_joined _ _ _ _ H) as [(-> & -> & Ef & E)|(-> & -> & Ef & E)]; exists (0,0,0); rewrite Ef in Ou; cbn [outward] in Ou; subst s; intros [[i j] k] [[i' j'] k'] _ _ G;
    pose proof (G I) as G1; pose proof (G J) as G2; pose proof (G K) as G3; cbv zeta in G1, G2, G3; unfold act, facePlane in G1, G2, G3; cbn [fst snd axis_eqb] in G1, G2, G3; rewrite !E in G1, G2, G3; cbn [oAB oBA fst snd axis_eqb dim ni nj nk sb_dims turnedA turnedB flipA negb pos co] in G1, G2, G3.
    + assert (E1: i' = (3 - k)%Z) by lia. assert (E2: j' = (4 - i)%Z) by lia. assert (E3: k' = j) by lia.
      unfold at3, turnedX. cbn [fst snd num sb_topo turnedA turnedB nblki Z.eqb]. rewrite E1, E2, E3, !minus_IZR. vext; ring.
    + assert (E1: k' = (3 - i)%Z) by lia. assert (E2: i' = (4 - j)%Z) by lia. assert (E3: j' = k) by lia.
      unfold at3, turnedX. cbn [fst snd num sb_topo turnedA turnedB nblki Z.eqb]. rewrite E1, E2, E3, !minus_IZR. vext; ring.
  - intros A f B o s H Ou. destruct (turned_joined _ _ _ _ H) as [(-> & -> & Ef & E)|(-> & -> & Ef & E)]; rewrite E; destruct s as [[] ?]; vm_compute; reflexivity.
Qed.
Print Assumptions C118_flow_rhs_conserves.
Print Assumptions C118_exchanged_data_is_shared.
