(** Specification vocabulary for grid verification: matching points of connected faces, without
    slices, transposes or flips. *)
From Coq Require Import ZArith String List Bool Reals.
From Verif Require Import M_Topology S_Topology M_Cut S_Cut.
Import ListNotations.
Open Scope Z_scope.

(** The index triple [p] lies on the face of [b] with outward direction [s]. *)
Definition onFace (b : gblock) (s : saxis) (p : axis -> Z) : Prop :=
  (forall a, 0 <= p a < points b a) /\ p (fst s) = if snd s then points b (fst s) - 1 else 0.

(** Face [s] of [A] is joined to [B] with orientation [o]: [p] and [q] are the two copies of one
    point.  Along the face, indices are carried over in the sense given by the orientation. *)
Definition partner (A B : gblock) (s : saxis) (o : orient) (p q : axis -> Z) : Prop :=
  onFace A s p /\ onFace B (S_Topology.flip (act o s)) q /\
  forall a, a <> fst s -> q (fst (o a)) = if snd (o a) then p a else points A a - 1 - p a.

(** The joined faces have the same numbers of points. *)
Definition sameExtent (A B : gblock) (s : saxis) (o : orient) : Prop :=
  forall a, a <> fst s -> points B (fst (o a)) = points A a.

(** Where translational periodicity carries a point of the face. *)
Definition carried (g : gface) (x y : R * R * R) : Prop :=
  let '(x1, x2, x3) := x in
  (bcType (topo g) = "periodicTransLow"%string /\
     exists a b c d, paxis g = Some (a, b, c) /\ span g = Some d /\ y = (x1 + a * d, x2 + b * d, x3 + c * d)%R) \/
  (bcType (topo g) = "periodicTransHigh"%string /\
     exists a b c d, paxis g = Some (a, b, c) /\ span g = Some d /\ y = (x1 - a * d, x2 - b * d, x3 - c * d)%R) \/
  (bcType (topo g) <> "periodicTransLow"%string /\ bcType (topo g) <> "periodicTransHigh"%string /\ y = x).

(** Equal to within 1e-10 in every coordinate. *)
Definition near (x y : R * R * R) : Prop :=
  let '(x1, x2, x3) := x in let '(y1, y2, y3) := y in
  (Rabs (x1 - y1) <= 1 / 10 ^ 10 /\ Rabs (x2 - y2) <= 1 / 10 ^ 10 /\ Rabs (x3 - y3) <= 1 / 10 ^ 10)%R.

(** The triple product of the three edges at the first corner is not negative. *)
Definition notLeftHanded (b : gblock) : Prop :=
  let ei := fun c : Z -> Z -> Z -> R => Rminus (c 1 0 0) (c 0 0 0) in
  let ej := fun c : Z -> Z -> Z -> R => Rminus (c 0 1 0) (c 0 0 0) in
  let ek := fun c : Z -> Z -> Z -> R => Rminus (c 0 0 1) (c 0 0 0) in
  (0 <= ei (gx b) * (ej (gy b) * ek (gz b) - ej (gz b) * ek (gy b))
      + ei (gy b) * (ej (gz b) * ek (gx b) - ej (gx b) * ek (gz b))
      + ei (gz b) * (ej (gx b) * ek (gy b) - ej (gy b) * ek (gx b)))%R.

(** The types of a boundary face (one without a neighbour), the types that need no family, and
    the types of rotational connections. *)
Definition connectionTypes : list string :=
  ["b0"; "periodicTransLow"; "periodicTransHigh"; "periodicRotLow"; "periodicRotHigh"]%string.
Definition isBoundaryType (t : string) : Prop := In t boundaryTypes /\ ~ In t connectionTypes.
Definition needsNoFamily (t : string) : Prop :=
  In t ["supersonicExit"; "adiabaticSlipWall"; "adiabaticNoSlipWall"]%string.

(** A boundary face as the solver's readers accept it. *)
Definition boundaryFace (g : gface) : Prop :=
  neighbor (topo g) = None /\ isBoundaryType (bcType (topo g)) /\ orientation (topo g) = None /\
  (needsNoFamily (bcType (topo g)) \/ bcFam (topo g) <> None).

(** Everything about a connected face except the coordinates: the face it ends on names this block
    and has as many points. *)
Definition connectedFace (mb : list gblock) (A : Z) (s : saxis) (g : gface) : Prop :=
  forall a B b o, blk mb A a -> neighbor (topo g) = Some B -> blk mb B b -> legal o -> orientation (topo g) = Some (show o) ->
    sameExtent a b s o /\
    exists h, fac mb B (faceNo (S_Topology.flip (act o s))) h /\ neighbor (topo h) = Some A.

(** Periodic faces carry their data. *)
Definition translational (t : string) : Prop := In t ["periodicTransLow"; "periodicTransHigh"]%string.
Definition rotational (t : string) : Prop := In t ["periodicRotLow"; "periodicRotHigh"]%string.
Definition periodicData (g : gface) : Prop :=
  translational (bcType (topo g)) -> (exists v, paxis g = Some v) /\ exists d, span g = Some d.

(** The coordinates of the two sides of every connection agree, and no block is left handed. *)
Definition pointsAgree (mb : list gblock) : Prop :=
  (forall A s g B o a b p q x, fac mb A (faceNo s) g -> neighbor (topo g) = Some B -> legal o -> orientation (topo g) = Some (show o) ->
     blk mb A a -> blk mb B b -> partner a b s o p q -> carried g (node a p) x -> near x (node b q)) /\
  (forall A a, blk mb A a -> notLeftHanded a).

(** Every block has at least one cell. *)
Definition hasCells (mb : list gblock) : Prop := forall n b a, blk mb n b -> 2 <= points b a.
