(** Specification for C156: accuracy of cell gradients of a smooth field. *)
From Coq Require Import Reals ZArith.
From Verif Require Import M_Grid M_Metrics S_Metrics.
Open Scope R_scope.

(** the field along the line through P in direction u *)
Definition along (phi : vec -> R) (P u : vec) (t : R) : R := phi (vadd P (vscale t u)).
(** D 0, D 1, ... D n are f and its derivatives *)
Definition derivatives (n : nat) (f : R -> R) (D : nat -> R -> R) : Prop :=
  (forall t, D 0%nat t = f t) /\ forall k, (k < n)%nat -> forall t, derivable_pt_lim (D k) t (D (S k) t).
(** the edge of a cell is [h] times a fixed direction [u] (of any length), so that the grid is refined by taking [h] smaller *)
Definition edgeAlong (edge u : vec) (h : R) : Prop := 0 < h /\ edge = vscale h u.
