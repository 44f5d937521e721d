(** Specification vocabulary for cutting a connected grid: connections as signed axis maps, coincidence of
    joined faces, and the pieces a cut surface leaves - without slices, flags or search order. *)
From Coq Require Import ZArith String List Bool Reals.
From Verif Require Import M_Topology S_Topology M_Cut S_Cut.
Import ListNotations.
Open Scope Z_scope.

(** Side [s] of block [A] is joined to side [s'] of block [B]; [o] says where A's axes run in B. *)
Definition conn (mb : list gblock) (A : Z) (s : saxis) (B : Z) (s' : saxis) (o : orient) : Prop :=
  exists g, fac mb A (faceNo s) g /\ neighbor (topo g) = Some B /\ legal o /\
    orientation (topo g) = Some (show o) /\ s' = S_Topology.flip (act o s).

(** Every connection is answered by the inverse connection; no side is joined to itself. *)
Definition paired (mb : list gblock) : Prop :=
  forall A s B s' o, conn mb A s B s' o ->
    (A, s) <> (B, s') /\ exists o', inverse o o' /\ conn mb B s' A s o'.

(** The translation a face prescribes for the points seen through it. *)
Definition translated (g : gface) (p q : R * R * R) : Prop :=
  let '(x, y, z) := p in
  if String.eqb (bcType (topo g)) "b0" then q = p
  else exists a b c s, paxis g = Some (a, b, c) /\ span g = Some s /\ (a * a + b * b + c * c = 1)%R /\
    ((bcType (topo g) = "periodicTransLow"%string /\ q = ((x + a * s)%R, (y + b * s)%R, (z + c * s)%R)) \/
     (bcType (topo g) = "periodicTransHigh"%string /\ q = ((x - a * s)%R, (y - b * s)%R, (z - c * s)%R))).

(** Closer than the tolerance of the utility. *)
Definition close (p q : R * R * R) : Prop :=
  let '(a, b, c) := p in let '(x, y, z) := q in
  ((a - x) * (a - x) + (b - y) * (b - y) + (c - z) * (c - z) < (1 / 1000000000) * (1 / 1000000000))%R.

(** The index triples of side [s] of a block. *)
Definition onSide (b : gblock) (s : saxis) (p : axis -> Z) : Prop :=
  (forall c, 0 <= p c < points b c) /\ p (fst s) = if snd s then points b (fst s) - 1 else 0.

(** The index triple of the other block that a joint identifies with [p]. *)
Definition facing (b b' : gblock) (s : saxis) (o : orient) (p p' : axis -> Z) : Prop :=
  onSide b' (S_Topology.flip (act o s)) p' /\
  forall c, c <> fst s -> p' (fst (o c)) = if snd (o c) then p c else points b c - 1 - p c.

(** Joined sides have the same numbers of points and their points coincide, after translation for a
    periodic joint.  (A joint of any other kind - rotational - is not covered.) *)
Definition coincident (mb : list gblock) : Prop :=
  forall A s B s' o b b' g, conn mb A s B s' o -> blk mb A b -> blk mb B b' -> fac mb A (faceNo s) g ->
    (forall c, c <> fst s -> points b' (fst (o c)) = points b c) /\
    forall p p', onSide b s p -> facing b b' s o p p' ->
      exists q, translated g (node b p) q /\ close q (node b' p').

(** A usable grid: numbered, connected consistently, with coincident joints, at least one cell in each
    block; and the periodic faces know their axis. *)
Record goodGrid (mb : list gblock) : Prop := {
  good_wf : wfGrid mb;
  good_closed : closed mb;
  good_paired : paired mb;
  good_coincident : coincident mb;
  good_size : forall n b a, blk mb n b -> 2 <= points b a;
  good_periodic : forall n k g, fac mb n k g -> periodicReady g }.

(** The two pieces of a block cut along [a] at [i]: index range along [a]. *)
Definition pieceLo (b : gblock) (i : Z) (high : bool) : Z := if high then i else 0.
Definition pieceHi (b : gblock) (a : axis) (i : Z) (high : bool) : Z := if high then points b a - 1 else i.

(** [p] is a corner of side [s] of the piece. *)
Definition pieceCorner (b : gblock) (a : axis) (i : Z) (high : bool) (s : saxis) (e : axis -> bool) : axis -> Z :=
  fun c => if axis_eqb c (fst s) then (if snd s then points b c - 1 else 0)
           else if axis_eqb c a then (if e c then pieceHi b a i high else pieceLo b i high)
           else (if e c then points b c - 1 else 0).

(** The centre of a side of a piece: the mean of its corners (each counted twice in the eight choices). *)
Definition vecAdd (p q : R * R * R) : R * R * R :=
  let '(a, b, c) := p in let '(x, y, z) := q in ((a + x)%R, (b + y)%R, (c + z)%R).
Definition pieceCentre (b : gblock) (a : axis) (i : Z) (high : bool) (s : saxis) : R * R * R :=
  let f e1 e2 e3 := node b (pieceCorner b a i high s (fun c => match c with I => e1 | J => e2 | K => e3 end)) in
  let '(x, y, z) :=
    vecAdd (vecAdd (vecAdd (f false false false) (f false false true)) (vecAdd (f false true false) (f false true true)))
           (vecAdd (vecAdd (f true false false) (f true false true)) (vecAdd (f true true false) (f true true true))) in
  ((x / 8)%R, (y / 8)%R, (z / 8)%R).

(** Where the surface cuts a block it passes in the same ([r = false]) or the opposite sense. *)
Definition cutAt (n idx : Z) (r : bool) : Z := if r then n - idx - 1 else idx.

(** The cut is clear: seen through its joint, the centre of a side of a piece comes near the centre of a side
    of another piece only where the two are the corresponding pieces of joined sides. *)
Definition clearCut (mb : list gblock) (x0 : cutState) (n idx : Z) : Prop :=
  forall A a r h s g q B a' r' h' s' g' b b',
    reached mb x0 (A, a, r) -> reached mb x0 (B, a', r') -> blk mb A b -> blk mb B b' ->
    fst s <> a -> fst s' <> a' -> fac mb A (faceNo s) g -> fac mb B (faceNo s') g' ->
    neighbor (topo g) <> None -> neighbor (topo g') <> None -> (A, h, s) <> (B, h', s') ->
    translated g (pieceCentre b a (cutAt n idx r) h s) q ->
    close q (pieceCentre b' a' (cutAt n idx r') h' s') ->
    exists o, conn mb A s B s' o /\ h' = (if snd (o a) then h else negb h).

(** The grid [mb'] is [mb] with the surface through the blocks of [path] cut: block [A] of the path keeps the
    part up to the cut, a new block holds the rest, other blocks are unchanged; conditions of faces are kept. *)
Record cutUp (mb : list gblock) (path : list cutState) (n idx : Z) (mb' : list gblock) : Prop := {
  cut_length : length mb' = (length mb + length path)%nat;
  cut_other : forall A b, blk mb A b -> ~ In A (map (fun x : cutState => fst (fst x)) path) ->
    exists b', blk mb' A b' /\ (forall c, points b' c = points b c) /\ forall p, node b' p = node b p;
  cut_low : forall A a r b, In (A, a, r) path -> blk mb A b ->
    exists b', blk mb' A b' /\ (forall c, points b' c = if axis_eqb c a then cutAt n idx r + 1 else points b c) /\
      forall p, node b' p = node b p;
  cut_high : forall j A a r b, nth_error path j = Some (A, a, r) -> blk mb A b ->
    exists b', blk mb' (Z.of_nat (length mb + j)) b' /\
      (forall c, points b' c = if axis_eqb c a then points b a - cutAt n idx r else points b c) /\
      forall p, node b' p = node b (shift a (cutAt n idx r) p);
  cut_faces_old : forall A s g, fac mb A (faceNo s) g -> ~ (exists a r, In (A, a, r) path /\ s = (a, true)) ->
    exists g', fac mb' A (faceNo s) g' /\ sameCondition g' g /\
      (neighbor (topo g') = None <-> neighbor (topo g) = None);
  cut_faces_new : forall j A a r s g, nth_error path j = Some (A, a, r) -> fac mb A (faceNo s) g -> s <> (a, false) ->
    exists g', fac mb' (Z.of_nat (length mb + j)) (faceNo s) g' /\ sameCondition g' g /\
      (neighbor (topo g') = None <-> neighbor (topo g) = None);
  cut_interface : forall j A a r, nth_error path j = Some (A, a, r) ->
    exists g h, fac mb' A (faceNo (a, true)) g /\ interiorTo (Z.of_nat (length mb + j)) g /\
      fac mb' (Z.of_nat (length mb + j)) (faceNo (a, false)) h /\ interiorTo A h }.

(** Cuts of one block along one axis at the indices [l], in turn. *)
Inductive cutInTurn (n : Z) (a : axis) : list Z -> list gblock -> list gblock -> Prop :=
| c_none : forall mb, cutInTurn n a [] mb mb
| c_cut : forall i l mb b path mb1 mb2, blk mb n b ->
    NoDup (map (fun x : cutState => fst (fst x)) path) -> (forall x, In x path <-> reached mb (n, a, false) x) ->
    cutUp mb path (points b a) i mb1 -> cutInTurn n a l mb1 mb2 -> cutInTurn n a (i :: l) mb mb2.

(** Each cut, in whatever grid the cuts before it lead to, is inside the block, unambiguous and clear. *)
Fixpoint feasible (n : Z) (a : axis) (l : list Z) (mb : list gblock) : Prop :=
  match l with
  | [] => True
  | i :: r => exists b, blk mb n b /\ 0 < i < points b a - 1 /\ unambiguous mb (n, a, false) /\
      clearCut mb (n, a, false) (points b a) i /\
      forall path mb', NoDup (map (fun x : cutState => fst (fst x)) path) -> (forall x, In x path <-> reached mb (n, a, false) x) ->
        cutUp mb path (points b a) i mb' -> goodGrid mb' -> feasible n a r mb'
  end.

(** [c] cuts of [p] points into [c + 1] even parts, the highest first. *)
Definition indices (p c : Z) : list Z :=
  map (fun k => p * (c - Z.of_nat k) / (c + 1)) (seq 0 (Z.to_nat c)).

(** A list of operations: block, axis, number of cuts. *)
Inductive cutDown : list (Z * axis * Z) -> list gblock -> list gblock -> Prop :=
| d_none : forall mb, cutDown [] mb mb
| d_op : forall n a c r mb b mb1 mb2, blk mb n b -> cutInTurn n a (indices (points b a) c) mb mb1 ->
    cutDown r mb1 mb2 -> cutDown ((n, a, c) :: r) mb mb2.
Fixpoint feasibleOps (ops : list (Z * axis * Z)) (mb : list gblock) : Prop :=
  match ops with
  | [] => True
  | (n, a, c) :: r => exists b, blk mb n b /\ feasible n a (indices (points b a) c) mb /\
      forall mb', cutInTurn n a (indices (points b a) c) mb mb' -> goodGrid mb' -> feasibleOps r mb'
  end.
