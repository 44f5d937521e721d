(** Specification vocabulary for the metrics: parallelepiped cells, determinants, linear fields. *)
From Coq Require Import Reals ZArith.
From Verif Require Import M_Topology M_Halo M_Grid M_Metrics.
Open Scope R_scope.

(** Triple product: signed volume of the parallelepiped spanned by a, b, c. *)
Definition det3 (a b c : vec) : R :=
  vx a * (vy b * vz c - vz b * vy c) - vy a * (vx b * vz c - vz b * vx c) + vz a * (vx b * vy c - vy b * vx c).
(** The cell (i,j,k) is the parallelepiped at x1 with edges a, b, c: all eight corners are where they should be. *)
Definition boxCell (X : nodes) (i j k : Z) (x1 a b c : vec) : Prop :=
  forall u v w, (0 <= u <= 1)%Z -> (0 <= v <= 1)%Z -> (0 <= w <= 1)%Z ->
   X (i+u)%Z (j+v)%Z (k+w)%Z = vadd x1 (vadd (vscale (IZR u) a) (vadd (vscale (IZR v) b) (vscale (IZR w) c))).
(** all cells of a grid are translates of one parallelepiped *)
Definition affineGrid (X : nodes) (o a b c : vec) : Prop :=
  forall i j k, X i j k = vadd o (vadd (vscale (IZR i) a) (vadd (vscale (IZR j) b) (vscale (IZR k) c))).
(** value at point p of the linear field with gradient g *)
Definition linearField (c0 : R) (g : vec) (p : vec) : R := c0 + (vx g * vx p + vy g * vy p + vz g * vz p).
Definition vzero : vec := (0, 0, 0).
Definition dot3 (a b : vec) : R := vx a * vx b + vy a * vy b + vz a * vz b.
