(** Specification for C148: convex sets, the region a block fills, parallelepipeds. *)
From Coq Require Import Reals ZArith List Bool.
From Verif Require Import M_Interp M_Hull.
Import ListNotations.
Open Scope R_scope.

Definition at3 (x y z : R) : pt := (x, y, z).
(** the point that divides the segment from p to q in the ratio t : 1 - t *)
Definition along (t : R) (p q : pt) : pt := at3 ((1 - t) * px p + t * px q) ((1 - t) * py p + t * py q) ((1 - t) * pz p + t * pz q).
Definition convexSet (C : pt -> Prop) : Prop := forall p q t, C p -> C q -> 0 <= t <= 1 -> C (along t p q).
(** the smallest convex set that contains the points *)
Definition smallestConvex (l : list pt) (x : pt) : Prop := forall C, convexSet C -> (forall p, In p l -> C p) -> C x.
(** the region of a cell: the eight nodes interpolated linearly in each direction; of a block: of its cells *)
Definition cellRegion (b : hblock) (i j k : Z) (x : pt) : Prop := exists u v w, 0 <= u <= 1 /\ 0 <= v <= 1 /\ 0 <= w <= 1 /\
  let row j k := along u (h_node b i j k) (h_node b (i + 1)%Z j k) in
  let sheet k := along v (row j k) (row (j + 1)%Z k) in
  x = along w (sheet k) (sheet (k + 1)%Z).
Definition region (b : hblock) (x : pt) : Prop :=
  exists i j k, (0 <= i < h_ni b - 1)%Z /\ (0 <= j < h_nj b - 1)%Z /\ (0 <= k < h_nk b - 1)%Z /\ cellRegion b i j k x.
(** node positions along an edge, from 0 to 1 *)
Definition spacing (n : Z) (s : Z -> R) : Prop := s 0%Z = 0 /\ s (n - 1)%Z = 1 /\ forall i, (0 <= i < n - 1)%Z -> s i <= s (i + 1)%Z.
Definition corner (o a b c : pt) (u v w : R) : pt :=
  at3 (px o + u * px a + v * px b + w * px c) (py o + u * py a + v * py b + w * py c) (pz o + u * pz a + v * pz b + w * pz c).
(** a block with at least one cell, whose grid lines are straight and parallel, its nodes spaced in any way *)
Definition parallelepiped (B : hblock) (o a b c : pt) : Prop :=
  (2 <= h_ni B)%Z /\ (2 <= h_nj B)%Z /\ (2 <= h_nk B)%Z /\ exists s t r, spacing (h_ni B) s /\ spacing (h_nj B) t /\ spacing (h_nk B) r /\
  forall i j k, (0 <= i < h_ni B)%Z -> (0 <= j < h_nj B)%Z -> (0 <= k < h_nk B)%Z -> h_node B i j k = corner o a b c (s i) (t j) (r k).
Definition straight (B : hblock) : Prop := exists o a b c, parallelepiped B o a b c.
(** maps of space that keep straight lines and ratios: motions, changes of units, shears *)
Definition affine (A : pt -> pt) : Prop := forall t p q, A (along t p q) = along t (A p) (A q).
Definition mapped (A : pt -> pt) (b : hblock) : hblock := mkHb (h_ni b) (h_nj b) (h_nk b) (fun i j k => A (h_node b i j k)).
(** the same block with its index directions exchanged, or one of them reversed *)
Definition swappedIJ (b : hblock) : hblock := mkHb (h_nj b) (h_ni b) (h_nk b) (fun i j k => h_node b j i k).
Definition swappedJK (b : hblock) : hblock := mkHb (h_ni b) (h_nk b) (h_nj b) (fun i j k => h_node b i k j).
Definition reversedI (b : hblock) : hblock := mkHb (h_ni b) (h_nj b) (h_nk b) (fun i j k => h_node b (h_ni b - 1 - i)%Z j k).
(** an index at an end of its range, or in the middle of a range of more than four nodes *)
Definition markedIndex (n i : Z) : Prop := i = 0%Z \/ i = (n - 1)%Z \/ ((4 < n)%Z /\ i = (n / 2)%Z).
(** all nodes of a block, as findBounds gets them *)
Definition indices (n : Z) : list Z := map Z.of_nat (seq 0 (Z.to_nat n)).
Definition nodesOf (b : hblock) : list pt :=
  flat_map (fun i => flat_map (fun j => map (fun k => h_node b i j k) (indices (h_nk b))) (indices (h_nj b))) (indices (h_ni b)).
Definition asSource (hb : Z -> hblock) (n : Z) : sblock := mkSB n (h_node (hb n) 0%Z 0%Z 0%Z) (nodesOf (hb n)).
