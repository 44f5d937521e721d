(** Specification for C146: what a quantity that depends on the temperature does where its formula changes. *)
From Coq Require Import Reals.
Open Scope R_scope.

(** just above the temperature a, f is r times its value at a *)
Definition jumpsBy (f : R -> R) (a r : R) : Prop := forall eps, 0 < eps -> exists d, 0 < d /\ forall T, a < T < a + d -> Rabs (f T / f a - r) < eps.
(** and just below it, f approaches its value at a *)
Definition reaches (f : R -> R) (a : R) : Prop := forall eps, 0 < eps -> exists d, 0 < d /\ forall T, a - d < T <= a -> Rabs (f T - f a) < eps.
