(** Specification vocabulary for grid statistics and automatic cutting. *)
From Coq Require Import ZArith String List Bool Reals Permutation.
From Verif Require Import M_Topology S_Topology M_Cut S_Cut.
Import ListNotations.
Open Scope Z_scope.

(** The blocks carry the numbers 0 .. n-1, in any order. *)
Definition numbered (mb : list gblock) : Prop :=
  Permutation (map gn mb) (map Z.of_nat (seq 0 (length mb))).

(** Sum of a quantity over the blocks. *)
Fixpoint total (f : gblock -> R) (mb : list gblock) : R :=
  match mb with [] => 0%R | b :: r => (f b + total f r)%R end.

(** [b] is the block the statistics should name: none comes before it in the preference [better],
    and among equals it has the lowest number. *)
Definition extreme (better : Z -> Z -> Prop) (mb : list gblock) (b : gblock) : Prop :=
  In b mb /\ forall c, In c mb ->
    better (cellCount b) (cellCount c) \/ (cellCount c = cellCount b /\ gn b <= gn c).

(** The number of pieces a block of [P] points must be cut into for [limit] points per piece. *)
Definition enoughPieces (P limit q : Z) : Prop :=
  P <= limit * q /\ forall q', 1 <= q' < q -> limit * q' < P.
