(** Model of src/peregrinepy/interpolation/bounds.py:ptsInBlkBounds: the points a block is represented by when it is asked which points lie in it.  Definitions only. *)
From Coq Require Import Reals ZArith List Bool.
From Verif Require Import M_Interp.
Import ListNotations.
Open Scope Z_scope.

(** a block: its node counts and the coordinates of its nodes (x, y, z arrays, indices from 0; an index of -1 means the last) *)
Record hblock := mkHb { h_ni : Z; h_nj : Z; h_nk : Z; h_node : Z -> Z -> Z -> pt }.
Section Points.
Variable b : hblock.
Let P := h_node b.
Let ei := h_ni b - 1. Let ej := h_nj b - 1. Let ek := h_nk b - 1.
(** indx = int(n / 2) *)
Let mi := h_ni b / 2. Let mj := h_nj b / 2. Let mk := h_nk b / 2.
(** the eight corners (bounds.py:27-70) *)
Definition corners : list pt := [P 0 0 0; P ei 0 0; P 0 ej 0; P 0 0 ek; P ei ej 0; P ei 0 ek; P 0 ej ek; P ei ej ek].
(** middles of the edges along i (74-100), of the faces k (105-122) and j (123-140) *)
Definition alongI : list pt :=
  if 4 <? h_ni b then
    [P mi 0 0; P mi ej 0; P mi 0 ek; P mi ej ek]
    ++ (if 4 <? h_nj b then [P mi mj 0; P mi mj ek] else [])
    ++ (if 4 <? h_nk b then [P mi 0 mk; P mi ej mk] else [])
  else [].
(** middles of the edges along j (142-168) and of the faces i (169-186) *)
Definition alongJ : list pt :=
  if 4 <? h_nj b then
    [P 0 mj 0; P ei mj 0; P 0 mj ek; P ei mj ek]
    ++ (if 4 <? h_nk b then [P 0 mj mk; P ei mj mk] else [])
  else [].
(** middles of the edges along k (187-213) *)
Definition alongK : list pt := if 4 <? h_nk b then [P 0 0 mk; P ei 0 mk; P 0 ej mk; P ei ej mk] else [].
(** cube, in the order it is appended to (27-215) *)
Definition cube : list pt := corners ++ alongI ++ alongJ ++ alongK.
End Points.
(** spatial.Delaunay(cube).find_simplex(x) >= 0 (217-218): the triangulation fills the convex hull of its points, so [answers inside] is what scipy promises.  Qhull refuses points that all lie in
    one plane; that exception is not modelled. *)
Definition inHullOf (l : list pt) (x : pt) : Prop :=
  exists w : list R, length w = length l /\ (forall a, In a w -> (0 <= a)%R) /\ fold_right Rplus 0%R w = 1%R /\
    px x = fold_right Rplus 0%R (map (fun ap => fst ap * px (snd ap))%R (combine w l)) /\
    py x = fold_right Rplus 0%R (map (fun ap => fst ap * py (snd ap))%R (combine w l)) /\
    pz x = fold_right Rplus 0%R (map (fun ap => fst ap * pz (snd ap))%R (combine w l)).
Definition ptsInBlkBounds (b : hblock) (x : pt) : Prop := inHullOf (cube b) x.
