(** Properties C06-C11: halo exchange.  Vocabulary: S_Topology, S_Halo.  Model: M_Halo. *)
From Coq Require Import ZArith String Ascii List Bool Lia Permutation.
From Verif Require Import M_Topology S_Topology L_Topology M_Halo S_Halo L_Halo3 L_Halo4 L_Halo5 L_Halo6.
Import ListNotations.
Open Scope Z_scope.

(** C06.  On every consistent multi-block grid (any number of blocks and ranks, any of the 48
    orientations on any face, self-connected blocks included) setup succeeds, the exchange of q/Q
    completes, and each face-halo cell of each connected face holds the value of the neighbour's
    interior cell that occupies the same place once the two index spaces are glued at the face. *)
Theorem C06_cell_halo_exchange : forall ng w, conforming ng w ->
  exists cw, setupAll ng w = Some cw /\
  forall (V : Type) (st : state V), exists st', communicate ng KCcAll cw st = Some st' /\
    forall A f B o s p, joined w A f B o -> outward (nface f) s -> inHalo KCcAll ng (sb_dims A) s p ->
      (forall a, a <> fst s -> interiorAt KCcAll ng (sb_dims A) p a) -> ng < dim (sb_dims B) (fst (o (fst s))) ->
      exists p', interior KCcAll ng (sb_dims B) p' /\
        glued ng (sb_dims A) (sb_dims B) s o (pos KCcAll p) (pos KCcAll p') /\
        at3 (st' (num A)) p = at3 (st (num B)) p'.
Proof. intros ng w. exact (halo_faces ng w KCcAll). Qed.

(** C07.  The same for the grid nodes x, y, z. *)
Theorem C07_node_halo_exchange : forall ng w, conforming ng w ->
  exists cw, setupAll ng w = Some cw /\
  forall (V : Type) (st : state V), exists st', communicate ng KNode cw st = Some st' /\
    forall A f B o s p, joined w A f B o -> outward (nface f) s -> inHalo KNode ng (sb_dims A) s p ->
      (forall a, a <> fst s -> interiorAt KNode ng (sb_dims A) p a) -> ng < dim (sb_dims B) (fst (o (fst s))) ->
      exists p', interior KNode ng (sb_dims B) p' /\
        glued ng (sb_dims A) (sb_dims B) s o (pos KNode p) (pos KNode p') /\
        at3 (st' (num A)) p = at3 (st (num B)) p'.
Proof. intros ng w. exact (halo_faces ng w KNode). Qed.

(** C06/C07, edges and corners: every halo entry covered by several connected faces holds what the
    highest-numbered of them delivers, i.e. the (pre-exchange) entry glued to it through that face. *)
Theorem C07_edge_halo_exchange : forall ng w k, conforming ng w ->
  exists cw, setupAll ng w = Some cw /\
  forall (V : Type) (st : state V), exists st', communicate ng k cw st = Some st' /\
    (forall A p, In A (blocksOf w) -> inArray k ng (sb_dims A) p ->
      (forall f B o s p', joined w A f B o -> outward (nface f) s -> inHalo k ng (sb_dims A) s p ->
         (forall f2 B2 o2 s2, joined w A f2 B2 o2 -> outward (nface f2) s2 -> nface f < nface f2 ->
              ~ inHalo k ng (sb_dims A) s2 p) ->
         glued ng (sb_dims A) (sb_dims B) s o (pos k p) (pos k p') ->
         at3 (st' (num A)) p = at3 (st (num B)) p') /\
      ((forall f B o s, joined w A f B o -> outward (nface f) s -> ~ inHalo k ng (sb_dims A) s p) ->
         at3 (st' (num A)) p = at3 (st (num A)) p)) /\
    (forall n, ~ In n (map num (blocksOf w)) -> st' n = st n).
Proof. exact halo_main. Qed.

(** The glued entry is unique, so the three theorems determine the halo value. *)
Theorem C07_glued_entry_unique : forall k ng dA dB s o X p p', legal o ->
  glued ng dA dB s o X (pos k p) -> glued ng dA dB s o X (pos k p') -> p = p'.
Proof. exact glued_unique. Qed.

(** C08.  Gradients and the shock switch: only the first halo layer is written, with the adjacent
    interior cell of the neighbour; the other halo layers keep their values. *)
Theorem C08_first_halo_exchange : forall ng w, conforming ng w ->
  exists cw, setupAll ng w = Some cw /\
  forall (V : Type) (st : state V), exists st', communicate ng KCcFirst cw st = Some st' /\
    forall A f B o s p, joined w A f B o -> outward (nface f) s -> inHalo KCcFirst ng (sb_dims A) s p ->
      (forall a, a <> fst s -> interiorAt KCcFirst ng (sb_dims A) p a) -> ng < dim (sb_dims B) (fst (o (fst s))) ->
      exists p', interior KCcFirst ng (sb_dims B) p' /\
        glued ng (sb_dims A) (sb_dims B) s o (pos KCcFirst p) (pos KCcFirst p') /\
        at3 (st' (num A)) p = at3 (st (num B)) p'.
Proof. intros ng w. exact (halo_faces ng w KCcFirst). Qed.

Theorem C08_other_layers_kept : forall ng w, conforming ng w ->
  exists cw, setupAll ng w = Some cw /\
  forall (V : Type) (st : state V), exists st', communicate ng KCcFirst cw st = Some st' /\
    forall A p, In A (blocksOf w) -> inArray KCcFirst ng (sb_dims A) p ->
      (forall f B o s, joined w A f B o -> outward (nface f) s -> ~ inHalo KCcFirst ng (sb_dims A) s p) ->
      at3 (st' (num A)) p = at3 (st (num A)) p.
Proof.
  intros ng w C. destruct (halo_untouched ng w KCcFirst C) as [cw [E H]]. exists cw. split; auto.
  intros V st. destruct (H V st) as [st' [E' [H1 _]]]. exists st'. split; auto.
Qed.

(** C09.  Nothing but halo entries of connected faces changes; in particular no interior entry. *)
Theorem C09_exchange_keeps_interior : forall ng w k, conforming ng w ->
  exists cw, setupAll ng w = Some cw /\
  forall (V : Type) (st : state V), exists st', communicate ng k cw st = Some st' /\
    (forall A p, In A (blocksOf w) -> inArray k ng (sb_dims A) p ->
      (forall f B o s, joined w A f B o -> outward (nface f) s -> ~ inHalo k ng (sb_dims A) s p) ->
         at3 (st' (num A)) p = at3 (st (num A)) p) /\
    (forall A p, In A (blocksOf w) -> interior k ng (sb_dims A) p ->
         at3 (st' (num A)) p = at3 (st (num A)) p).
Proof. exact halo_untouched. Qed.

(** C10.  For every posted receive there is a matching send of another (or the same) block's face,
    its oriented slices have exactly the shape of the receiving buffer, and the message has exactly
    as many entries as the receive buffer; the number of layers is the number of slices placed. *)
Theorem C10_buffer_shapes_match : forall (V : Type) ng w cw k (st : state V) r cb c,
  conforming ng w -> setupAll ng w = Some cw -> receives cw r cb c ->
  exists rs cbs cs, receives cw rs cbs cs /\
    matches r c (sendMessage ng k rs cs (st (cb_num cbs))) = true /\
    cf_neighbor c = cb_num cbs /\ cf_neighbor cs = cb_num cb /\
    sendShape k cs = sliceShape k c /\
    (forall g, 0 <= g -> (g < nLayers k ng <-> (Z.to_nat g < length (recvSlices k c))%nat)) /\
    m_size (sendMessage ng k rs cs (st (cb_num cbs))) = nLayers k ng * (fst (sliceShape k c) * snd (sliceShape k c)).
Proof. exact (@recv_complete). Qed.

(** C11.  Receive tags are globally distinct, send tags are globally distinct, they are the same
    set, and every receive is matched by exactly one message. *)
Theorem C11_tags_unique : forall ng w cw, conforming ng w -> setupAll ng w = Some cw ->
  NoDup (map cf_tagR (allFaces cw)) /\ NoDup (map cf_tagS (allFaces cw)) /\
  Permutation (map cf_tagR (allFaces cw)) (map cf_tagS (allFaces cw)).
Proof. exact tags_unique. Qed.

Theorem C11_exactly_one_match : forall ng w cw k, conforming ng w -> setupAll ng w = Some cw ->
  forall (V : Type) (st : state V) r cb c, receives cw r cb c ->
  length (filter (matches r c) (allSends ng k st cw)) = 1%nat.
Proof. exact exactly_one. Qed.

(** A concrete grid meeting the hypotheses: two blocks on two ranks; the +i face of block 0 meets
    the +j face of block 7, with our i along their -j, our j along their k and our k along their -i
    ("534"); block 7 is also periodically connected to itself in k. *)
Definition exA : sblock := mkSBlock (mkBlock 0
  (map (fun k => if k =? 2 then mkFace 2 None "b0" (Some 7) (Some "534"%string) else mkFace k None "adiabaticNoSlipWall" None None)
       [1;2;3;4;5;6])) (mkDims 4 5 6).
Definition exB : sblock := mkSBlock (mkBlock 7
  (map (fun k => if k =? 4 then mkFace 4 None "b0" (Some 0) (Some "642"%string)
                 else if k =? 5 then mkFace 5 None "periodicTransLow" (Some 7) (Some "123"%string)
                 else if k =? 6 then mkFace 6 None "periodicTransHigh" (Some 7) (Some "123"%string)
                 else mkFace k None "adiabaticNoSlipWall" None None)
       [1;2;3;4;5;6])) (mkDims 6 7 5).
Definition exW : list (list sblock) := [[exA]; [exB]].
Definition oAB : orient := fun a => match a with I => (J,false) | J => (K,true) | K => (I,false) end.
Definition oBA : orient := fun a => match a with I => (K,false) | J => (I,false) | K => (J,true) end.
Definition oId : orient := fun a => (a, true).

Example ex_conforming : conforming 2 exW.
Proof.
  assert (LA: legal oAB) by (intros [] []; simpl; congruence).
  assert (LB: legal oBA) by (intros [] []; simpl; congruence).
  assert (LI: legal oId) by (intros [] []; simpl; congruence).
  split; [lia|]. split.
  { cbv. constructor; [cbv; intuition discriminate|constructor; [cbv; tauto|constructor]]. }
  split.
  - intros A [<-|[<-|[]]]; split; try reflexivity; intros []; reflexivity.
  - intros A f n [<-|[<-|[]]] Hf En; simpl in Hf;
    repeat (destruct Hf as [<-|Hf]; [simpl in En; try discriminate En|]); try destruct Hf; injection En as <-.
    + exists exB, oAB, (mkFace 4 None "b0" (Some 0) (Some "642"%string)), oBA, (I,true).
      repeat split; simpl; auto; try tauto; try (intros [[] []]; reflexivity); intros []; simpl; congruence.
    + exists exA, oBA, (mkFace 2 None "b0" (Some 7) (Some "534"%string)), oAB, (J,true).
      repeat split; simpl; auto; try tauto; try (intros [[] []]; reflexivity); intros []; simpl; congruence.
    + exists exB, oId, (mkFace 6 None "periodicTransHigh" (Some 7) (Some "123"%string)), oId, (K,false).
      repeat split; simpl; auto; try tauto; try (intros [[] []]; reflexivity); intros []; simpl; congruence.
    + exists exB, oId, (mkFace 5 None "periodicTransLow" (Some 7) (Some "123"%string)), oId, (K,true).
      repeat split; simpl; auto; try tauto; try (intros [[] []]; reflexivity); intros []; simpl; congruence.
Qed.

(** ... and the exchange computed on it: halo cell (5,3,4) of block 0 (first layer beyond +i) gets
    cell (4,7,3) of block 7. *)
Example ex_value : exists cw st', setupAll 2 exW = Some cw /\
  communicate 2 KCcAll cw (fun n i j k => (n, i, j, k)) = Some st' /\
  st' 0 5 3 4 = (7, 4, 7, 3) /\ glued 2 (sb_dims exA) (sb_dims exB) (I,true) oAB (pos KCcAll (5,3,4)) (pos KCcAll (4,7,3)).
Proof.
  eexists. eexists. split; [vm_compute; reflexivity|]. split; [reflexivity|]. split; [vm_compute; reflexivity|].
  intros []; vm_compute; reflexivity.
Qed.

Print Assumptions C06_cell_halo_exchange.
Print Assumptions C07_node_halo_exchange.
Print Assumptions C08_other_layers_kept.
Print Assumptions C09_exchange_keeps_interior.
Print Assumptions C10_buffer_shapes_match.
Print Assumptions C11_tags_unique.
Print Assumptions C11_exactly_one_match.
