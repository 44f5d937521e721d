(** Properties C23-C25: conservation and flux blending. *)
From Coq Require Import Reals ZArith String List Bool Lia Lra Permutation.
From Verif Require Import M_Topology S_Topology M_Halo S_Halo M_Grid M_Metrics M_Flux S_Sum S_Flux L_Topology L_Halo3 L_Halo4 L_Grid1 L_Sum L_Flux1 L_Flux2 P_Halo.
Import ListNotations.
Open Scope R_scope.

Lemma inCC_in d ng ne i j k l : interiorCell d ng i j k -> (0 <= l < ne)%Z -> inCC d ng ne i j k l = true.
Proof. intros (A & B & C) D. now apply inCC_true. Qed.
Lemma inCC_out d ng ne i j k l : ~ interiorCell d ng i j k \/ ~ (0 <= l < ne)%Z -> inCC d ng ne i j k l = false.
Proof. intros H. destruct (inCC d ng ne i j k l) eqn:E; auto. apply inCC_true in E. unfold interiorCell in H. exfalso. destruct H as [H|H]; apply H; tauto. Qed.

(** C23.  For every block size with at least one node per direction, every ghost count, every set of
    face fluxes and every component, the volume-weighted sum of what applyFlux adds to dQ over the
    interior is minus the net outflow through the six outer faces; nothing outside the interior or
    the components is touched. *)
Theorem C23_applyFlux_conserves : forall d ng ne Jv F dQ l,
  (1 <= ni d)%Z -> (1 <= nj d)%Z -> (1 <= nk d)%Z -> (0 <= l < ne)%Z -> volumesNonzero d ng Jv ->
  totalChange d ng Jv dQ (applyFlux d ng ne Jv F dQ) l = - sumR (outflow d ng F l) sixDirs.
Proof.
  intros d ng ne Jv F dQ l A B C Hl HJ. unfold totalChange.
  rewrite (block_sum d ng (fluxOf F l I) (fluxOf F l J) (fluxOf F l K)); [reflexivity|auto|auto|auto|].
  intros i j k Hi Hj Hk. assert (X: interiorCell d ng i j k) by (unfold interiorCell; tauto). unfold applyFlux. rewrite inCC_in by auto.
  cbv zeta. cbn [fluxOf]. field. now apply HJ.
Qed.

(** the hybrid application with flag [primary] = 1 (primary flux, weight 1 - switch) or 0 (secondary
    flux, weight switch) *)
Theorem C23_applyHybridFlux_conserves : forall d ng ne Jv phi primary F dQ l,
  (1 <= ni d)%Z -> (1 <= nj d)%Z -> (1 <= nk d)%Z -> (0 <= l < ne)%Z -> volumesNonzero d ng Jv ->
  primary = 0 \/ primary = 1 ->
  let w := if Req_EM_T primary 1 then compl (faceSwitch phi) else faceSwitch phi in
  totalChange d ng Jv dQ (applyHybridFlux d ng ne Jv phi primary F dQ) l = - sumR (outflow d ng (combine w F (const 0) F) l) sixDirs.
Proof.
  intros d ng ne Jv phi primary F dQ l A B C Hl HJ HP w. unfold totalChange.
  rewrite (block_sum d ng (fluxOf (combine w F (const 0) F) l I) (fluxOf (combine w F (const 0) F) l J) (fluxOf (combine w F (const 0) F) l K)); [reflexivity|auto|auto|auto|].
  intros i j k Hi Hj Hk. assert (X: interiorCell d ng i j k) by (unfold interiorCell; tauto). unfold applyHybridFlux. rewrite inCC_in by auto.
  cbv zeta. unfold w. cbn [fluxOf combine iF jF kF]. unfold compl, const. destruct (Req_EM_T primary 1) as [E|E]; destruct HP as [->| ->]; try lra;
  unfold faceSwitch; rewrite !Z.add_simpl_r, (Rmax_comm (phi i j k 0%Z) (phi (i-1)%Z j k 0%Z)), (Rmax_comm (phi i j k 1%Z) (phi i (j-1)%Z k 1%Z)), (Rmax_comm (phi i j k 2%Z) (phi i j (k-1)%Z 2%Z));
  field; now apply HJ.
Qed.

Theorem C23_applyDissipationFlux_conserves : forall d ng ne Jv F dQ l,
  (1 <= ni d)%Z -> (1 <= nj d)%Z -> (1 <= nk d)%Z -> (0 <= l < ne)%Z -> volumesNonzero d ng Jv ->
  totalChange d ng Jv dQ (applyDissipationFlux d ng ne Jv F dQ) l = sumR (outflow d ng F l) sixDirs.
Proof.
  intros d ng ne Jv F dQ l A B C Hl HJ. unfold totalChange.
  set (G := combine (const (-1)) F (const 0) F).
  rewrite (block_sum d ng (fluxOf G l I) (fluxOf G l J) (fluxOf G l K)); auto.
  - unfold sixDirs, sumR, outflow, G. cbn [map fold_right fst snd fluxOf combine iF jF kF].
    rewrite !(sum3_pts _ _ (fun i j k => _ * _ + _ * _)).
    unfold const, at3.
    assert (E: forall (f : array3 R) P, sumR (fun p : pt => -1 * f (fst (fst p)) (snd (fst p)) (snd p) + 0 * f (fst (fst p)) (snd (fst p)) (snd p)) P = - sumR (at3 f) P).
    { intros f P. replace (- sumR (at3 f) P) with ((-1) * sumR (at3 f) P) by ring. rewrite <- sumR_scale. apply sumR_ext. intros. unfold at3. ring. }
    rewrite (E (fun i j k => iF F i j k l)), (E (fun i j k => iF F i j k l)), (E (fun i j k => jF F i j k l)), (E (fun i j k => jF F i j k l)),
            (E (fun i j k => kF F i j k l)), (E (fun i j k => kF F i j k l)). rewrite <- !sum3_pts. ring.
  - intros i j k Hi Hj Hk. assert (X: interiorCell d ng i j k) by (unfold interiorCell; tauto). unfold applyDissipationFlux. rewrite inCC_in by auto.
    cbv zeta. unfold G, const. cbn [fluxOf combine iF jF kF]. field. now apply HJ.
Qed.

Theorem C23_only_interior_touched : forall d ng ne Jv phi primary F dQ i j k l,
  ~ interiorCell d ng i j k \/ ~ (0 <= l < ne)%Z ->
  applyFlux d ng ne Jv F dQ i j k l = dQ i j k l /\ applyHybridFlux d ng ne Jv phi primary F dQ i j k l = dQ i j k l /\
  applyDissipationFlux d ng ne Jv F dQ i j k l = dQ i j k l.
Proof. intros. unfold applyFlux, applyHybridFlux, applyDissipationFlux. rewrite !inCC_out by auto. auto. Qed.

(** C24.  On every conforming multi-block grid, if the blocks hold the same transfer through each
    shared face, the volume-weighted change summed over ALL blocks is minus the outflow through the
    unconnected faces only: interfaces, whatever their orientation, cancel. *)
Theorem C24_interfaces_cancel : forall ng ne w (F : Z -> fluxes) Jv dQ l,
  conforming ng w -> sameTransfer ng w F l -> (0 <= l < ne)%Z ->
  (forall A, In A (blocksOf w) -> volumesNonzero (sb_dims A) ng (Jv (num A))) ->
  sumR (fun A => totalChange (sb_dims A) ng (Jv (num A)) (dQ (num A)) (applyFlux (sb_dims A) ng ne (Jv (num A)) (F (num A)) (dQ (num A))) l) (blocksOf w) =
  - sumR (fun A => sumR (fun f => outflow (sb_dims A) ng (F (num A)) l (dirOf (nface f))) (boundaryFaces A)) (blocksOf w).
Proof.
  intros ng ne w F Jv dQ l HC ST Hl HJ. pose proof (multi_cancel ng w F l HC ST) as Z0.
  rewrite (sumR_ext _ (fun A => (-1) * sumR (fun f => outflow (sb_dims A) ng (F (num A)) l (dirOf (nface f))) (faces (sb_topo A)))).
  - rewrite sumR_scale. rewrite (sumR_ext _ (fun A => sumR (fun f => outflow (sb_dims A) ng (F (num A)) l (dirOf (nface f))) (boundaryFaces A) +
       sumR (fun f => outflow (sb_dims A) ng (F (num A)) l (dirOf (nface f))) (connFacesOf A))) by (intros; apply split_faces).
    rewrite sumR_plus. rewrite Z0. ring.
  - intros A HA. destruct HC as (_ & _ & HB & _). destruct (HB A HA) as [HS Hd].
    pose proof (Hd I). pose proof (Hd J). pose proof (Hd K). cbn [dim] in *.
    rewrite C23_applyFlux_conserves; [|lia|lia|lia|auto|auto].
    assert (E: sumR (fun f => outflow (sb_dims A) ng (F (num A)) l (dirOf (nface f))) (faces (sb_topo A)) = sumR (outflow (sb_dims A) ng (F (num A)) l) sixDirs).
    { change sixDirs with (map dirOf [1;2;3;4;5;6]%Z). rewrite <- HS. rewrite !sumR_map. reflexivity. }
    rewrite E. ring.
Qed.

(** C25.  With hybrid shock handling the advective right-hand side of every cell is the conservative
    difference of ONE blended face flux, (1 - s) * primary + s * secondary, where s is the switch of
    the face; the blend is the same seen from both adjacent cells because it depends on the face only. *)
Theorem C25_hybrid_is_a_blend : forall d ng ne Jv phi F1 F2 i j k l,
  interiorCell d ng i j k -> (0 <= l < ne)%Z -> volumesNonzero d ng Jv ->
  let B := combine (compl (faceSwitch phi)) F1 (faceSwitch phi) F2 in
  Jv i j k * advectiveRHS Hybrid d ng ne Jv phi F1 (Some F2) i j k l =
    (iF B i j k l - iF B (i+1)%Z j k l) + (jF B i j k l - jF B i (j+1)%Z k l) + (kF B i j k l - kF B i j (k+1)%Z l).
Proof.
  intros d ng ne Jv phi F1 F2 i j k l X Hl HJ B. unfold advectiveRHS, applyHybridFlux, dQzero. rewrite !inCC_in by auto. cbv zeta.
  unfold B, compl. cbn [combine iF jF kF]. unfold faceSwitch. rewrite !Z.add_simpl_r, (Rmax_comm (phi i j k 0%Z) (phi (i-1)%Z j k 0%Z)), (Rmax_comm (phi i j k 1%Z) (phi i (j-1)%Z k 1%Z)), (Rmax_comm (phi i j k 2%Z) (phi i j (k-1)%Z 2%Z)).
  field. now apply HJ.
Qed.

(** when the cell switches are in [0,1] so is the face switch: the blend is convex *)
Theorem C25_convex : forall phi a i j k, (forall i j k m, (0 <= m < 3)%Z -> 0 <= phi i j k m <= 1) ->
  0 <= faceSwitch phi a i j k <= 1 /\
  forall F1 F2 l, let b := fluxOf (combine (compl (faceSwitch phi)) F1 (faceSwitch phi) F2) l a i j k in
    Rmin (fluxOf F1 l a i j k) (fluxOf F2 l a i j k) <= b <= Rmax (fluxOf F1 l a i j k) (fluxOf F2 l a i j k).
Proof.
  intros phi a i j k H. assert (S: 0 <= faceSwitch phi a i j k <= 1).
  { destruct a; cbn [faceSwitch]; [pose proof (H (i-1) j k 0)%Z; pose proof (H i j k 0%Z)|pose proof (H i (j-1) k 1)%Z; pose proof (H i j k 1%Z)|pose proof (H i j (k-1) 2)%Z; pose proof (H i j k 2%Z)];
    unfold Rmax; destruct (Rle_dec _ _); repeat match goal with H : (_ <= _ < _)%Z -> _ |- _ => specialize (H ltac:(lia)) end; lra. }
  split; auto. intros F1 F2 l.
  assert (G: forall s x y, 0 <= s <= 1 -> Rmin x y <= (1 - s) * x + s * y <= Rmax x y).
  { intros s x y Hs. unfold Rmin, Rmax. destruct (Rle_dec x y); split; nra. }
  destruct a; cbn [fluxOf combine iF jF kF]; unfold compl; apply G; exact S.
Qed.

(** end points: switches 0 give the plain primary right-hand side, switches 1 the secondary one *)
Theorem C25_endpoints : forall d ng ne Jv phi F1 F2 i j k l, interiorCell d ng i j k -> (0 <= l < ne)%Z -> volumesNonzero d ng Jv ->
  ((forall i j k m, phi i j k m = 0) -> advectiveRHS Hybrid d ng ne Jv phi F1 (Some F2) i j k l = advectiveRHS NoShock d ng ne Jv phi F1 None i j k l) /\
  ((forall i j k m, phi i j k m = 1) -> advectiveRHS Hybrid d ng ne Jv phi F1 (Some F2) i j k l = advectiveRHS NoShock d ng ne Jv phi F2 None i j k l).
Proof.
  intros d ng ne Jv phi F1 F2 i j k l X Hl HJ. unfold advectiveRHS, applyHybridFlux, applyFlux, dQzero. rewrite !inCC_in by auto. cbv zeta.
  split; intros H; rewrite !H; unfold Rmax; destruct (Rle_dec _ _); try lra; field; now apply HJ.
Qed.

(** artificial dissipation: the right-hand side is the conservative difference of primary minus
    dissipative flux *)
Theorem C25_dissipation_is_subtracted : forall d ng ne Jv phi F1 F2 i j k l, interiorCell d ng i j k -> (0 <= l < ne)%Z -> volumesNonzero d ng Jv ->
  advectiveRHS ArtificialDissipation d ng ne Jv phi F1 (Some F2) i j k l =
  advectiveRHS NoShock d ng ne Jv phi (combine (const 1) F1 (const (-1)) F2) None i j k l.
Proof.
  intros d ng ne Jv phi F1 F2 i j k l X Hl HJ. unfold advectiveRHS, applyDissipationFlux, applyFlux, dQzero. rewrite !inCC_in by auto. cbv zeta.
  unfold const. cbn [combine iF jF kF]. field. now apply HJ.
Qed.

(** Hypotheses are met: the two-block conforming grid of P_Halo with fluxes 1 through i faces of block
    0 and the corresponding -1 through j faces of block 7, plus a flux through its periodic k faces. *)
Definition exF : Z -> fluxes := fun n =>
  if (n =? 0)%Z then mkFl (fun _ _ _ _ => 1) (fun _ j _ _ => IZR j) (fun _ _ _ _ => 5)
  else mkFl (fun i _ _ _ => IZR i) (fun _ _ _ _ => -1) (fun _ _ _ _ => 3).
Example ex_transfer : sameTransfer 2 exW exF 0.
Proof.
  intros A f B o s p p' (HA & Hf & HB & En & L & Eo) Ou Hp G.
  assert (HL: forall q, legal q -> orientation f = Some (show q) -> forall a, o a = q a).
  { intros q Lq Eq. apply show_inj. congruence. }
  destruct HA as [<-|[<-|[]]]; simpl in Hf;
    repeat (destruct Hf as [<-|Hf]; [simpl in En; try discriminate En|]); try destruct Hf; injection En as En;
    destruct HB as [<-|[<-|[]]]; try discriminate En; apply dirOf_outward in Ou; cbn in Ou; subst s; cbn [fst snd].
  - rewrite (HL oAB) by (try reflexivity; intros [] []; simpl; congruence). cbn. lra.
  - rewrite (HL oBA) by (try reflexivity; intros [] []; simpl; congruence). cbn. lra.
  - rewrite (HL oId) by (try reflexivity; intros [] []; simpl; congruence). cbn. lra.
  - rewrite (HL oId) by (try reflexivity; intros [] []; simpl; congruence). cbn. lra.
Qed.
Example ex_volumes : forall d ng, volumesNonzero d ng (fun _ _ _ => 1).
Proof. intros d ng i j k _. lra. Qed.

Print Assumptions C23_applyFlux_conserves.
Print Assumptions C23_applyHybridFlux_conserves.
Print Assumptions C23_applyDissipationFlux_conserves.
Print Assumptions C23_only_interior_touched.
Print Assumptions C24_interfaces_cancel.
Print Assumptions C25_hybrid_is_a_blend.
Print Assumptions C25_convex.
Print Assumptions C25_endpoints.
Print Assumptions C25_dissipation_is_subtracted.
