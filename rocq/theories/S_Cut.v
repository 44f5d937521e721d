(** Specification vocabulary for grid cutting: index-space geometry and connections, without
    slices, face tables or update order. *)
From Coq Require Import ZArith String List Bool Reals.
From Verif Require Import M_Topology S_Topology M_Cut.
Import ListNotations.
Open Scope Z_scope.

(** The letter by which a user names an axis. *)
Definition letter (a : axis) : string :=
  match a with I => "i" | J => "j" | K => "k" end%string.

(** Number of grid points of a block along an axis; cells are one fewer. *)
Definition points (b : gblock) (a : axis) : Z :=
  let '(x, y, z) := gshape b in match a with I => x | J => y | K => z end.
Definition cellCount (b : gblock) : Z := (points b I - 1) * (points b J - 1) * (points b K - 1).

(** The coordinates stored at an index triple. *)
Definition node (b : gblock) (p : axis -> Z) : R * R * R :=
  (gx b (p I) (p J) (p K), gy b (p I) (p J) (p K), gz b (p I) (p J) (p K)).

(** Moving an index triple along an axis. *)
Definition shift (a : axis) (d : Z) (p : axis -> Z) : axis -> Z :=
  fun c => if axis_eqb c a then p c + d else p c.

(** The face number with outward direction [s]. *)
Definition faceNo (s : saxis) : Z :=
  match s with
  | (I, false) => 1 | (I, true) => 2 | (J, false) => 3 | (J, true) => 4
  | (K, false) => 5 | (K, true) => 6
  end.

(** Block number [n] of the multi-block, and face number [k] of block [n]. *)
Definition blk (mb : list gblock) (n : Z) (b : gblock) : Prop :=
  0 <= n /\ nth_error mb (Z.to_nat n) = Some b.
Definition fac (mb : list gblock) (n k : Z) (g : gface) : Prop :=
  exists b, blk mb n b /\ 1 <= k <= 6 /\ nth_error (gfaces b) (Z.to_nat (k - 1)) = Some g.

(** A grid as the readers produce it: blocks numbered from 0 in order, six faces each. *)
Definition wfGrid (mb : list gblock) : Prop :=
  forall n b, blk mb n b ->
    gn b = n /\ map (fun g => nface (topo g)) (gfaces b) = [1;2;3;4;5;6].

(** The periodic data of a face are usable: a periodic face knows its (unit) axis. *)
Definition periodicReady (g : gface) : Prop :=
  isPeriodic (bcType (topo g)) = true ->
  exists a b c, paxis g = Some (a, b, c) /\ (a * a + b * b + c * c = 1)%R.

(** Same boundary data (everything but the number of the neighbour). *)
Definition sameCondition (g h : gface) : Prop :=
  nface (topo g) = nface (topo h) /\ bcType (topo g) = bcType (topo h) /\
  bcFam (topo g) = bcFam (topo h) /\ orientation (topo g) = orientation (topo h) /\
  (isPeriodic (bcType (topo g)) = true -> span g = span h /\ paxis g = paxis h).

(** One crossing of a cut surface: the surface that cuts block [A] along axis [a] (reversed if
    [r]) meets a lateral face of [A] and continues in the neighbour along the image axis. *)
Definition cutState := (Z * axis * bool)%type.
Definition crosses (mb : list gblock) (x y : cutState) : Prop :=
  let '(A, a, r) := x in let '(B, a', r') := y in
  exists s g o, fst s <> a /\ fac mb A (faceNo s) g /\ neighbor (topo g) = Some B /\
    legal o /\ orientation (topo g) = Some (show o) /\
    fst (o a) = a' /\ r' = (if snd (o a) then r else negb r).

(** Blocks reached by following the surface. *)
Inductive reached (mb : list gblock) (x : cutState) : cutState -> Prop :=
| r_here : reached mb x x
| r_next : forall y z, reached mb x y -> crosses mb y z -> reached mb x z.

(** Every connection names an existing block and a legal orientation. *)
Definition closed (mb : list gblock) : Prop :=
  forall A k g B, fac mb A k g -> neighbor (topo g) = Some B ->
    (exists b, blk mb B b) /\ exists o, legal o /\ orientation (topo g) = Some (show o).

(** An interior connection to block [B] with all axes parallel. *)
Definition interiorTo (B : Z) (g : gface) : Prop :=
  neighbor (topo g) = Some B /\ orientation (topo g) = Some (show (fun a => (a, true))) /\
  bcType (topo g) = "b0"%string /\ bcFam (topo g) = None.

(** The connection of face [far] (outward direction [s]) ends on face [k] of block [B]. *)
Definition endsOn (far : gface) (s : saxis) (B k : Z) : Prop :=
  neighbor (topo far) = Some B /\
  exists o, legal o /\ orientation (topo far) = Some (show o) /\ outward k (S_Topology.flip (act o s)).

(** The part of a cut block on which a cell ends up: cell [c] of [b] is cell [d] of [b'] when the
    eight corner points agree. *)
Definition corner (c : axis -> Z) (e : axis -> bool) : axis -> Z := fun a => if e a then c a + 1 else c a.
Definition isCell (b : gblock) (c : axis -> Z) : Prop := forall a, 0 <= c a < points b a - 1.
Definition sameCell (b : gblock) (c : axis -> Z) (b' : gblock) (d : axis -> Z) : Prop :=
  isCell b c /\ isCell b' d /\ forall e, node b (corner c e) = node b' (corner d e).

(** Every connection is answered: the face it ends on names the block it came from. *)
Definition reciprocal (mb : list gblock) : Prop :=
  forall A s g B k, fac mb A (faceNo s) g -> endsOn g s B k ->
    exists h, fac mb B k h /\ neighbor (topo h) = Some A.

(** The cut surface passes through every block it meets in one way only. *)
Definition unambiguous (mb : list gblock) (x0 : cutState) : Prop :=
  forall B c r c' r', reached mb x0 (B, c, r) -> reached mb x0 (B, c', r') -> c = c' /\ r = r'.
