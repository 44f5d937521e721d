(** Specification vocabulary for the halo-exchange properties.  Nothing here mentions slices,
    buffers, orientation functions, tags or messages: only index-space geometry. *)
From Coq Require Import ZArith String List Bool.
From Verif Require Import M_Topology S_Topology M_Halo.
Import ListNotations.
Open Scope Z_scope.

(** Index triples and their coordinates. *)
Definition pt := (Z * Z * Z)%type.
Definition co (p : pt) (a : axis) : Z :=
  match a with I => fst (fst p) | J => snd (fst p) | K => snd p end.
Definition at3 {V} (v : array3 V) (p : pt) : V := v (fst (fst p)) (snd (fst p)) (snd p).

(** Number of nodes of a block along an axis (without halos). *)
Definition dim (d : dims) (a : axis) : Z := match a with I => ni d | J => nj d | K => nk d end.

(** Extent of the arrays, halos included: one fewer cell than nodes. *)
Definition extent (k : kind) (ng : Z) (d : dims) (a : axis) : Z :=
  match k with KNode => dim d a + 2 * ng | _ => dim d a + 2 * ng - 1 end.
Definition inArray (k : kind) (ng : Z) (d : dims) (p : pt) : Prop :=
  forall a, 0 <= co p a < extent k ng d a.

(** Interior (non-halo) entries. *)
Definition interiorAt (k : kind) (ng : Z) (d : dims) (p : pt) (a : axis) : Prop :=
  ng <= co p a < extent k ng d a - ng.
Definition interior (k : kind) (ng : Z) (d : dims) (p : pt) : Prop :=
  forall a, interiorAt k ng d p a.

(** Entries that belong to the halo beyond the face with outward direction [s]: [ng] layers, or
    only the layer touching the block for gradients and shock switch. *)
Definition inHalo (k : kind) (ng : Z) (d : dims) (s : saxis) (p : pt) : Prop :=
  let x := co p (fst s) in
  let n := dim d (fst s) in
  match k, snd s with
  | KNode, false => 0 <= x < ng
  | KNode, true => n + ng <= x < n + 2 * ng
  | KCcAll, false => 0 <= x < ng
  | KCcAll, true => n - 1 + ng <= x < n - 1 + 2 * ng
  | KCcFirst, false => x = ng - 1
  | KCcFirst, true => x = n - 1 + ng
  end.

(** Position in index space, in half-cell units: node i sits at 2i, cell i at 2i+1. *)
Definition pos (k : kind) (p : pt) (a : axis) : Z :=
  match k with KNode => 2 * co p a | _ => 2 * co p a + 1 end.

(** The (node) index plane on which the face with outward direction [s] lies, in half units. *)
Definition facePlane (ng : Z) (d : dims) (s : saxis) : Z :=
  if snd s then 2 * (dim d (fst s) + ng - 1) else 2 * ng.

(** Two blocks are glued along a face: our face [s] onto the face of the neighbour with the
    opposite image direction.  [glued ng dA dB s o X X']: position [X] in our index space is
    position [X'] in the neighbour's.  Along the face, axes are carried over with the sense given by
    the orientation; across the face, distances from the shared plane are preserved. *)
Definition glued (ng : Z) (dA dB : dims) (s : saxis) (o : orient) (X X' : axis -> Z) : Prop :=
  forall a,
    let a' := fst (o a) in
    let sense := snd (o a) in
    if axis_eqb a (fst s)
    then let delta := X a - facePlane ng dA s in
         X' a' = facePlane ng dB (flip (act o s)) + (if sense then delta else - delta)
    else X' a' = (if sense then X a else 2 * (dim dA a + 2 * ng - 1) - X a).

(** [joined w A f B o]: face [f] of block [A] of the multi-block [w] is connected to block [B] with
    orientation [o]. *)
Definition blocksOf (w : list (list sblock)) : list sblock := List.concat w.
Definition num (b : sblock) : Z := nblki (sb_topo b).

Definition joined (w : list (list sblock)) (A : sblock) (f : face) (B : sblock) (o : orient) : Prop :=
  In A (blocksOf w) /\ In f (faces (sb_topo A)) /\ In B (blocksOf w) /\
  neighbor f = Some (num B) /\ legal o /\ orientation f = Some (show o).

(** A consistent distributed multi-block grid: block numbers unique over all ranks, six faces per
    block, and every connection is reciprocal with inverse orientation and equal face dimensions. *)
Definition conforming (ng : Z) (w : list (list sblock)) : Prop :=
  0 < ng /\
  NoDup (map num (blocksOf w)) /\
  (forall A, In A (blocksOf w) -> map nface (faces (sb_topo A)) = [1;2;3;4;5;6] /\
                                  forall a, 0 < dim (sb_dims A) a) /\
  (forall A f n, In A (blocksOf w) -> In f (faces (sb_topo A)) -> neighbor f = Some n ->
     exists B o g o' s,
       joined w A f B o /\ num B = n /\ inverse o o' /\ outward (nface f) s /\
       joined w B g A o' /\ outward (nface g) (flip (act o s)) /\
       (forall a, a <> fst s -> dim (sb_dims B) (fst (o a)) = dim (sb_dims A) a)).
