(** Specification vocabulary for sector copies. *)
From Coq Require Import ZArith String List Bool Reals.
From Verif Require Import M_Topology S_Topology M_Grid M_Sector.
Import ListNotations.
Open Scope Z_scope.

(** Block [n], and its face [k]. *)
Definition sblk (mb : list block) (n : Z) (b : block) : Prop :=
  0 <= n /\ nth_error mb (Z.to_nat n) = Some b.
Definition sfac (mb : list block) (n k : Z) (f : face) : Prop :=
  exists b, sblk mb n b /\ 1 <= k <= 6 /\ nth_error (faces b) (Z.to_nat (k - 1)) = Some f.

(** Types that may face each other across a connection. *)
Definition typesMatch (t u : string) : Prop :=
  In (t, u) [("b0", "b0"); ("periodicRotLow", "periodicRotHigh"); ("periodicRotHigh", "periodicRotLow");
             ("periodicTransLow", "periodicTransHigh"); ("periodicTransHigh", "periodicTransLow")]%string.

(** The boundary types without a neighbour. *)
Definition isBoundary (t : string) : Prop :=
  In t boundaryTypes /\ forall u, ~ typesMatch t u.

(** Face [k] of block [A] and face [k'] of block [B] are joined, each naming the other, with
    inverse orientations and matching types. *)
Definition joins (mb : list block) (A k B k' : Z) : Prop :=
  exists f g o o' s, sfac mb A k f /\ sfac mb B k' g /\
    neighbor f = Some B /\ neighbor g = Some A /\
    legal o /\ inverse o o' /\ orientation f = Some (show o) /\ orientation g = Some (show o') /\
    outward k s /\ outward k' (S_Topology.flip (act o s)) /\
    typesMatch (bcType f) (bcType g).

(** A consistently connected multi-block: numbered in order, six faces per block, every face a
    boundary or joined. *)
Definition consistent (mb : list block) : Prop :=
  (forall n b, sblk mb n b -> nblki b = n /\ map nface (faces b) = [1;2;3;4;5;6]) /\
  (forall A k f, sfac mb A k f ->
     (neighbor f = None /\ isBoundary (bcType f)) \/ (exists B k', neighbor f = Some B /\ joins mb A k B k')).

(** No block reaches from the low side of the sector to the high side. *)
Definition notThin (mb : list block) : Prop :=
  forall A k k' f g, sfac mb A k f -> sfac mb A k' g ->
    bcType f = "periodicRotLow"%string -> bcType g <> "periodicRotHigh"%string.

(** The only periodicity is the rotation of the sector. *)
Definition rotationOnly (mb : list block) : Prop :=
  forall A k f, sfac mb A k f -> bcType f <> "periodicTransLow"%string /\ bcType f <> "periodicTransHigh"%string.
