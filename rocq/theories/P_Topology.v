(** Properties C01-C05: topology.  Vocabulary: S_Topology.  Model: M_Topology. *)
From Coq Require Import ZArith String Ascii List Bool Lia.
From Verif Require Import M_Topology S_Topology L_Topology.
Import ListNotations.
Open Scope Z_scope.

(** C01.  For each of the 48 legal orientations, neighborOrientation returns the textual form of
    the inverse signed permutation, which is again legal, and applying it twice gives the original. *)
Theorem C01_neighbor_orientation_inverse : forall o, legal o ->
  exists o', neighborOrientation (show o) = Some (show o') /\ legal o' /\
             inverse o o' /\ inverse o' o /\
             neighborOrientation (show o') = Some (show o).
Proof. exact c01. Qed.

(** C01/C03.  A three-digit string is accepted exactly when it spells a signed permutation. *)
Theorem C01_neighbor_orientation_rejects : forall a b c,
  0 <= a <= 9 -> 0 <= b <= 9 -> 0 <= c <= 9 ->
  (neighborOrientation (str3 a b c) <> None <-> exists o, legal o /\ show o = str3 a b c).
Proof. exact c01_reject. Qed.

(** Non-trivial instance: our i runs along their -k, j along +i, k along -j ("615"). *)
Example C01_ex : legal (fun a => match a with I => (K,false) | J => (I,true) | K => (J,false) end)
  /\ show (fun a => match a with I => (K,false) | J => (I,true) | K => (J,false) end) = "615"%string
  /\ neighborOrientation "615" = Some "264"%string.
Proof. split; [intros [] []; simpl; congruence|split; reflexivity]. Qed.

(** C02.  The face of the neighbour that touches face [n] is the one whose outward direction is
    opposite to the image of our outward direction; and the relation is symmetric. *)
Theorem C02_neighbor_face_geometric : forall o n s, legal o -> outward n s ->
  exists m, neighborNface n (show o) = Some m /\ 1 <= m <= 6 /\
    outward m (flip (act o s)) /\
    exists o', neighborOrientation (show o) = Some o' /\ neighborNface m o' = Some n.
Proof. exact c02. Qed.

Example C02_ex : neighborNface 3 "615" = Some 2 /\ neighborNface 2 "264" = Some 3 /\ outward 3 (J,false).
Proof. repeat split. Qed.

Lemma valid_boundary s : In s validBcTypes <-> In s boundaryTypes.
Proof. split; intros H; simpl in *; tauto. Qed.

(** C03.  After any history of attribute assignments (those that raise leave the face alone),
    a face still has a face number in 1..6 and a recognised boundary type. *)
Theorem C03_face_invariant : forall n f ops, newFace n = Some f ->
  let g := fold_left run_setter ops f in
  (1 <= nface g <= 6) /\ In (bcType g) boundaryTypes.
Proof. intros n f ops E. destruct (c03 n f ops E) as [H1 H2]. split; [exact H1|]. now apply valid_boundary. Qed.

Theorem C03_nface_accepts_exactly : forall f v,
  set_nface f v <> None <-> exists z, v = PInt z /\ 1 <= z <= 6.
Proof. exact c03_reject_nface. Qed.

Theorem C03_bcType_accepts_exactly : forall f v,
  set_bcType f v <> None <-> exists s, v = PStr s /\ In s boundaryTypes.
Proof.
  intros f v. rewrite c03_reject_bcType. split; intros [s [E H]]; exists s; split; auto; now apply valid_boundary.
Qed.

(** What fails: the orientation setter accepts every string, e.g. one that is not a signed
    permutation; it is only rejected later, when the neighbour's orientation is computed. *)
Theorem C03_orientation_setter_refuted : exists s, (forall o, legal o -> show o <> s) /\
  (forall f, set_orientation f (PStr s) <> None) /\ neighborOrientation s = None.
Proof.
  exists "113"%string. split; [|split; [intros f; simpl; congruence|reflexivity]].
  intros o L E. destruct (c01 o L) as [o' [E' _]]. rewrite E in E'. discriminate E'.
Qed.

Example C03_ex : exists f, newFace 4 = Some f /\
  bcType (fold_left run_setter [(SBcType, PStr "supersonicExit"); (SBcType, PStr "nonsense"); (SNface, PInt 9)] f)
   = "supersonicExit"%string.
Proof. eexists; split; reflexivity. Qed.

(** C04.  Starting from n>0 blocks, any number of appendBlock calls succeeds, numbers stay unique,
    and every block is still found under its own number. *)
Theorem C04_append_unique : forall n k, (0 < n)%nat ->
  exists mb, appends k (newTopology n) = Some mb /\
    length mb = (n + k)%nat /\ NoDup (blockList mb) /\
    (forall b, In b mb -> getBlock mb (nblki b) = GB_Block b).
Proof. exact c04. Qed.

(** C04, one step, on any non-empty multi-block with unique numbers (however numbered). *)
Theorem C04_append_fresh : forall mb, mb <> [] -> NoDup (blockList mb) ->
  exists b, appendBlock mb = Some (mb ++ [b]) /\ NoDup (blockList (mb ++ [b])).
Proof. exact c04_append. Qed.

Example C04_ex : exists mb, appends 3 (newTopology 2) = Some mb /\ blockList mb = [0;1;2;3;4].
Proof. eexists; split; reflexivity. Qed.

(** C05 (part).  When the number requested is a valid list index, getBlock returns the block with
    that number, or None if the rank does not own it.  Missing: block numbers outside that range,
    where the code raises - see the refutation below. *)
Theorem C05_getBlock_partial : forall mb n, NoDup (blockList mb) ->
  - Z.of_nat (length mb) <= n < Z.of_nat (length mb) ->
  match getBlock mb n with
  | GB_Block b => In b mb /\ nblki b = n
  | GB_None => ~ In n (blockList mb)
  | GB_IndexError => False
  end.
Proof. exact c05_partial. Qed.

(** C05 is violated: a rank that owns blocks 3 and 4 raises IndexError when asked for block 3. *)
Theorem C05_getBlock_refuted : exists mb n b,
  NoDup (blockList mb) /\ In b mb /\ nblki b = n /\ getBlock mb n = GB_IndexError.
Proof. exact c05_refuted. Qed.

(** ... in fact whenever the block's number is not smaller than the number of blocks on the rank. *)
Theorem C05_getBlock_refuted_general : forall mb b,
  Z.of_nat (length mb) <= nblki b -> getBlock mb (nblki b) = GB_IndexError.
Proof.
  intros mb b H. unfold getBlock, py_index.
  replace ((0 <=? nblki b) && (nblki b <? Z.of_nat (length mb))) with false by lia.
  replace ((- Z.of_nat (length mb) <=? nblki b) && (nblki b <? 0)) with false by lia. reflexivity.
Qed.

Example C05_ex : getBlock [newBlock 1; newBlock 0] 1 = GB_Block (newBlock 1).
Proof. reflexivity. Qed.

Print Assumptions C01_neighbor_orientation_inverse.
Print Assumptions C02_neighbor_face_geometric.
Print Assumptions C03_face_invariant.
Print Assumptions C04_append_unique.
Print Assumptions C05_getBlock_partial.
(** C03: of a new block, getFace gives the face of that number for 1 to 6 and refuses every other number *)
Theorem C03_getFace : forall m n, (1 <= n <= 6 -> exists f, getFace (newBlock m) n = Some f /\ nface f = n /\ bcType f = "adiabaticNoSlipWall"%string) /\ (~ (1 <= n <= 6) -> getFace (newBlock m) n = None).
Proof.
  intros m n. split; intros H.
  - assert (C : n = 1 \/ n = 2 \/ n = 3 \/ n = 4 \/ n = 5 \/ n = 6) by lia. destruct C as [-> | [-> | [-> | [-> | [-> | ->]]]]]; eexists; (split; [reflexivity|split; reflexivity]).
  - unfold getFace. destruct (Z.leb_spec 1 n), (Z.leb_spec n 6); try reflexivity. exfalso. lia.
Qed.
