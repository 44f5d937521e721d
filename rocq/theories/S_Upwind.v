(** Specification for C155: one step of a first-order upwind scheme. *)
From Coq Require Import Reals ZArith List Bool.
From Verif Require Import M_Topology M_Halo M_Grid M_Metrics S_Metrics M_Flux S_Flux M_FluxKernels S_FluxKernels.
Import ListNotations.
Open Scope R_scope.

(** the cell and the six around it *)
Definition around (i j k : Z) : list (Z * Z * Z) :=
  [(i, j, k); ((i - 1)%Z, j, k); ((i + 1)%Z, j, k); (i, (j - 1)%Z, k); (i, (j + 1)%Z, k); (i, j, (k - 1)%Z); (i, j, (k + 1)%Z)].
Definition cellAt (c : Z -> Z -> Z -> cell) (p : Z * Z * Z) : cell := let '(i, j, k) := p in c i j k.
(** component l of the cell after a time dt with the fluxes F through its faces, V its volume *)
Definition after (dt : R) (V : array3 R) (F : fluxes) (c : Z -> Z -> Z -> cell) (i j k l : Z) : R :=
  cQ (c i j k) l + dt / V i j k * (iF F i j k l + jF F i j k l + kF F i j k l - iF F (i + 1)%Z j k l - jF F i (j + 1)%Z k l - kF F i j (k + 1)%Z l).
Definition positive (x : R) : R := Rmax x 0.
(** mass that leaves the cell per unit time *)
Definition leavingMass (F : fluxes) (i j k : Z) : R :=
  positive (iF F (i + 1)%Z j k 0%Z) + positive (jF F i (j + 1)%Z k 0%Z) + positive (kF F i j (k + 1)%Z 0%Z) +
  positive (- iF F i j k 0%Z) + positive (- jF F i j k 0%Z) + positive (- kF F i j k 0%Z).
(** a state with mass and sound *)
Definition gasState (c : cell) : Prop := coherent c /\ 0 < c_rho c /\ 0 < c_c c.
(** the larger of the speeds on the two sides of a face times its area, each with the sound speed of the other side *)
Definition faceRate (g : fgeo) (L Rc : cell) : R :=
  Rmax (Rabs (faceNormalVelocity g L) + c_c Rc) (Rabs (faceNormalVelocity g Rc) + c_c L) * gS g.
Definition faceRates (X : nodes) (c : Z -> Z -> Z -> cell) (i j k : Z) : R :=
  faceRate (geoI X i j k) (c (i - 1)%Z j k) (c i j k) + faceRate (geoI X (i + 1) j k) (c i j k) (c (i + 1)%Z j k) +
  faceRate (geoJ X i j k) (c i (j - 1)%Z k) (c i j k) + faceRate (geoJ X i (j + 1) k) (c i j k) (c i (j + 1)%Z k) +
  faceRate (geoK X i j k) (c i j (k - 1)%Z) (c i j k) + faceRate (geoK X i j (k + 1)) (c i j k) (c i j (k + 1)%Z).
(** density stays non-negative, and every mass fraction within the bounds of the cell and its neighbours *)
Definition noNewExtrema (dt : R) (V : array3 R) (F : fluxes) (c : Z -> Z -> Z -> cell) (i j k : Z) : Prop :=
  0 <= after dt V F c i j k 0%Z /\
  forall l lo hi, (5 <= l)%Z -> (forall p, In p (around i j k) -> lo <= cq (cellAt c p) l <= hi) ->
    lo * after dt V F c i j k 0%Z <= after dt V F c i j k l <= hi * after dt V F c i j k 0%Z.
