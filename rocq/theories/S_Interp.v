(** What an interpolation between grids may do to the values. *)
From Coq Require Import Reals List ZArith.
Import ListNotations.
Open Scope R_scope.
(** y is a value of variable i in one of the source blocks *)
Definition sourceHas (from : list (list (list R))) (i : nat) (y : R) : Prop := exists b vals, In b from /\ nth_error b i = Some vals /\ In y vals.
(** x is between two source values of variable i *)
Definition withinSource (from : list (list (list R))) (i : nat) (x : R) : Prop := exists lo hi, sourceHas from i lo /\ sourceHas from i hi /\ lo <= x <= hi.
