(** What the run loop is meant to do, in terms of the sequence of states a time step generates and divisibility of the iteration number. *)
From Coq Require Import Reals ZArith List String.
Import ListNotations.
Open Scope Z_scope.

Section Spec.
Variable St : Type.
Variable dtOf : R -> St -> R.
Variable step : R -> St -> St.
Variable nans : St -> Z.
(** the state, the time and the step size after k steps from a given start *)
Inductive after (s0 : St) (t0 dt0 : R) : nat -> St -> R -> R -> Prop :=
| after0 : after s0 t0 dt0 0 s0 t0 dt0
| afterS k s t dt : after s0 t0 dt0 k s t dt -> after s0 t0 dt0 (S k) (step (dtOf dt s) s) (t + dtOf dt s)%R (dtOf dt s).
(** a check is due when the interval is not zero and divides the iteration number; it stops the run if a value is not finite *)
Definition checked (interval n : Z) : Prop := interval <> 0 /\ (interval | n).
Definition stopsAt (interval n0 : Z) (s0 : St) (t0 dt0 : R) (k : nat) : Prop :=
  checked interval (n0 + Z.of_nat k) /\ exists s t dt, after s0 t0 dt0 k s t dt /\ nans s > 0.
(** the run takes K steps: all that were asked for, or up to the first check that stops it *)
Definition runLength (interval n0 : Z) (s0 : St) (t0 dt0 : R) (asked K : nat) : Prop :=
  (K <= asked)%nat /\ (forall j, (1 <= j < K)%nat -> ~ stopsAt interval n0 s0 t0 dt0 j) /\ (K = asked \/ (1 <= K)%nat /\ stopsAt interval n0 s0 t0 dt0 K).
(** [lists P l]: l lists, once each and in ascending order, the numbers 1..K with property P *)
Inductive ascending : list nat -> Prop := asc0 : ascending [] | asc1 x : ascending [x] | asc2 x y l : (x < y)%nat -> ascending (y :: l) -> ascending (x :: y :: l).
Definition lists (K : nat) (P : nat -> Prop) (l : list nat) : Prop := ascending l /\ forall k, In k l <-> (1 <= k <= K)%nat /\ P k.
End Spec.
Arguments after {St}. Arguments stopsAt {St}. Arguments runLength {St}.
