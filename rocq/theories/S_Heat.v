(** Specification for C158: conduction of heat and diffusion of species between cells. *)
From Coq Require Import Reals ZArith List Bool.
From Verif Require Import M_Topology M_Halo M_Grid M_Metrics S_Metrics M_Flux M_Diff.
Import ListNotations.
Open Scope R_scope.

(** boxes of sides hx, hy, hz along the coordinate axes, with faces of at least the clip area *)
Definition boxes (X : nodes) (o : vec) (hx hy hz : R) : Prop :=
  affineGrid X o (hx, 0, 0) (0, hy, 0) (0, 0, hz) /\ 0 < hx /\ 0 < hy /\ 0 < hz /\ tiny <= hy * hz /\ tiny <= hz * hx /\ tiny <= hx * hy.
(** the cells sit on the grid; everything else about them, their stored gradients included, is arbitrary *)
Definition onGrid (X : nodes) (D : Z -> Z -> Z -> dcell) : Prop := forall i j k, dX (D i j k) = cellCentre X i j k.
Definition temperature (c : dcell) : R := dq c 4%Z.
Definition conductivity (c : dcell) : R := dt c 1%Z.
Definition atRest (c : dcell) : Prop := dq c 1%Z = 0 /\ dq c 2%Z = 0 /\ dq c 3%Z = 0.
Definition sameMixture (ne : Z) (a b : dcell) : Prop := forall l, (5 <= l < ne)%Z -> dq a l = dq b l.
(** heat that flows from a cell to one at distance h through a face of area S, per unit time *)
Definition conducted (S h : R) (from to : dcell) : R := (conductivity from + conductivity to) / 2 * S * (temperature from - temperature to) / h.
(** the neighbours of a cell with the areas of the common faces and the distances *)
Definition neighbours (D : Z -> Z -> Z -> dcell) (hx hy hz : R) (i j k : Z) : list (R * R * dcell) :=
  [(hy * hz, hx, D (i - 1)%Z j k); (hy * hz, hx, D (i + 1)%Z j k); (hz * hx, hy, D i (j - 1)%Z k);
   (hz * hx, hy, D i (j + 1)%Z k); (hx * hy, hz, D i j (k - 1)%Z); (hx * hy, hz, D i j (k + 1)%Z)].
(** heat received by the cell from all its neighbours *)
Definition received (D : Z -> Z -> Z -> dcell) (hx hy hz : R) (i j k : Z) : R :=
  fold_right Rplus 0 (map (fun '(A, h, c) => conducted A h c (D i j k)) (neighbours D hx hy hz i j k)).
(** how fast the cell exchanges heat with its neighbours per degree of difference *)
Definition exchange (D : Z -> Z -> Z -> dcell) (hx hy hz : R) (i j k : Z) : R :=
  fold_right Rplus 0 (map (fun '(A, h, c) => (conductivity c + conductivity (D i j k)) / 2 * A / h) (neighbours D hx hy hz i j k)).
