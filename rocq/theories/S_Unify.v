(** Specification vocabulary for halo nodes on connected and periodic faces: rigid motions of space, and
    which of them carries a neighbour's nodes to where they belong beyond a face. *)
From Coq Require Import Reals ZArith String List Bool.
From Verif Require Import M_Topology S_Topology M_Halo S_Halo M_Grid S_Grid.
Import ListNotations.
Open Scope R_scope.

Definition translate (u v : vec) : vec := vadd v u.
Definition cross (a b : vec) : vec :=
  (vy a * vz b - vz a * vy b, vz a * vx b - vx a * vz b, vx a * vy b - vy a * vx b).
(** Rotation by the angle [th] about the axis [u] through the origin (Rodrigues). *)
Definition turned (u : vec) (th : R) (v : vec) : vec :=
  vadd (vscale (cos th) v) (vadd (vscale (sin th) (cross u v)) (vscale ((1 - cos th) * dot u v) u)).

(** The motion that belongs to a face: none for an ordinary connection; for the low (high) face of a
    periodic pair, back (forward) by the span, along the axis or, in degrees, about it. *)
Inductive motion (f : gface) : (vec -> vec) -> Prop :=
| m_none : ~ In (bcType (gf_face f)) ["periodicTransLow"; "periodicTransHigh"; "periodicRotLow"; "periodicRotHigh"]%string ->
    motion f (fun v => v)
| m_transLow a s : bcType (gf_face f) = "periodicTransLow"%string -> gf_axis f = Some a -> gf_span f = Some s ->
    motion f (translate (vscale (- s) a))
| m_transHigh a s : bcType (gf_face f) = "periodicTransHigh"%string -> gf_axis f = Some a -> gf_span f = Some s ->
    motion f (translate (vscale s a))
| m_rotLow a s : bcType (gf_face f) = "periodicRotLow"%string -> gf_axis f = Some a -> gf_span f = Some s ->
    motion f (turned a (- (s * PI / 180)))
| m_rotHigh a s : bcType (gf_face f) = "periodicRotHigh"%string -> gf_axis f = Some a -> gf_span f = Some s ->
    motion f (turned a (s * PI / 180)).

(** Boundary types as users write them, with the data periodic ones need: span and axis set, and a
    neighbour to be periodic with. *)
Definition wellTyped (f : gface) : Prop :=
  In (bcType (gf_face f)) boundaryTypes /\
  (String.prefix "periodic" (bcType (gf_face f)) = true ->
     gf_axis f <> None /\ gf_span f <> None /\ neighbor (gf_face f) <> None).

Open Scope Z_scope.
Definition world (w : list (list gblock)) : list (list sblock) := map (map toSBlock) w.

(** The connectivity is regular along edges: if two blocks are joined at a face, then the faces of the
    two that meet at an edge of it are both connected or both not, and carry the same motion. *)
Definition regular (w : list (list gblock)) : Prop :=
  forall b f b' o s g t T, In b (List.concat w) -> In b' (List.concat w) ->
    In f (gb_faces b) -> joined (world w) (toSBlock b) (gf_face f) (toSBlock b') o ->
    outward (nface (gf_face f)) s ->
    In g (gb_faces b) -> outward (nface (gf_face g)) t -> fst t <> fst s -> motion g T ->
    exists g' T', In g' (gb_faces b') /\ outward (nface (gf_face g')) (act o t) /\ motion g' T' /\
      (neighbor (gf_face g) = None <-> neighbor (gf_face g') = None) /\ (forall v, T' v = T v).
(** The motions of faces that share an edge commute. *)
Definition commuting (w : list (list gblock)) : Prop :=
  forall b f g s t T U v, In b (List.concat w) -> In f (gb_faces b) -> In g (gb_faces b) ->
    outward (nface (gf_face f)) s -> outward (nface (gf_face g)) t -> fst s <> fst t ->
    motion f T -> motion g U -> T (U v) = U (T v).

(** Entry [p] of block [b] lies in the halo beyond some connected face. *)
Definition connectedHalo (ng : Z) (b : gblock) (p : pt) : Prop :=
  exists f n s, In f (gb_faces b) /\ neighbor (gf_face f) = Some n /\ outward (nface (gf_face f)) s /\
    inHalo KNode ng (gb_dims b) s p.
(** What a block by itself has at [p] once its halo has been extrapolated (C18). *)
Definition extrapolated (ng : Z) (d : dims) (x : array3 vec) (p : pt) : vec :=
  (at3 (generateHalo d ng (fun i j k => vx (x i j k))) p,
   at3 (generateHalo d ng (fun i j k => vy (x i j k))) p,
   at3 (generateHalo d ng (fun i j k => vz (x i j k))) p).

(** Node [p] (halo included) of block [c] of a lattice of equal blocks filling a box uniformly. *)
Definition latticeNode (ng : Z) (o l : R * R * R) (m : pt) (d : dims) (c p : pt) : vec :=
  (uniformNode (fst (fst o)) (fst (fst l)) (co m I * (dim d I - 1)) (co c I * (dim d I - 1) + co p I - ng),
   uniformNode (snd (fst o)) (snd (fst l)) (co m J * (dim d J - 1)) (co c J * (dim d J - 1) + co p J - ng),
   uniformNode (snd o) (snd l) (co m S_Topology.K * (dim d S_Topology.K - 1)) (co c S_Topology.K * (dim d S_Topology.K - 1) + co p S_Topology.K - ng)).
