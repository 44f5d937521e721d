(** Specification for C164 and C165: the composition of the gas in the fluxes. *)
From Coq Require Import Reals ZArith List Bool.
From Verif Require Import M_Topology M_Halo M_Grid M_Metrics S_Metrics S_Sum M_Flux S_Flux M_FluxKernels S_FluxKernels M_Diff.
Import ListNotations.
Open Scope R_scope.

(** the advective fluxes the documentation names *)
Definition advectiveKernels : list flux1 :=
  [KEEP; KEEPpe; KEPaEC; centralDifference; fourthOrderKEEP; rusanov; ausmPlusUp; hllc; muscl2hllc; muscl2rusanov].
(** all of them but the HLLC flux of reconstructed states, which limits each mass fraction by itself *)
Definition otherThanMuscl2hllc : list flux1 := [KEEP; KEEPpe; KEPaEC; centralDifference; fourthOrderKEEP; rusanov; ausmPlusUp; hllc; muscl2rusanov].
(** a gas of mass fractions Y: Y 5 is that of the first species, and so on *)
Definition gasOf (Y : Z -> R) (c : cell) : Prop := coherent c /\ forall l, (5 <= l)%Z -> cq c l = Y l.
(** every species goes where the mass goes, in proportion to its mass fraction *)
Definition carried (Y : Z -> R) (a : Z -> R) : Prop := forall l, (5 <= l)%Z -> a l = Y l * a 0%Z.

(** ** Which species is implied *)
(** the flow is the same: density, momentum, energy, pressure, velocity, temperature, and what follows from them *)
Definition sameFlow (a b : cell) : Prop :=
  (forall l, (l < 5)%Z -> cQ a l = cQ b l /\ cq a l = cq b l) /\ forall l, ch a l = ch b l.
(** in [c'] the entry l is that of the species which [c], with N transported species, leaves implied *)
Definition showsImplied (N l : Z) (c c' : cell) : Prop :=
  sameFlow c c' /\ coherent c' /\ cq c' l = 1 - sumZ 0 N (fun n => cq c (5 + n)%Z).
(** the fluxes through the six faces of a cell *)
Definition facesOf (F : fluxes) (i j k : Z) : list (Z -> R) :=
  [iF F i j k; iF F (i + 1)%Z j k; jF F i j k; jF F i (j + 1)%Z k; kF F i j k; kF F i j (k + 1)%Z].
(** all cells up to two away from a cell *)
Definition near (i j k : Z) (P : Z -> Z -> Z -> Prop) : Prop := forall a b c, (i - 2 <= a <= i + 2)%Z -> (j - 2 <= b <= j + 2)%Z -> (k - 2 <= c <= k + 2)%Z -> P a b c.
(** a state in which the entry x is y times the entry r, for the triples (x, r, y) of a list: x a partial density, r the density of its cell, y the mass fraction *)
Definition inProportion {X} (ps : list (X * X * R)) (z : X -> R) : Prop := forall x r y, In (x, r, y) ps -> z x = y * z r.
