(** Specification for C123, written without the model's helpers. *)
From Coq Require Import Reals ZArith List Sorted.
Import ListNotations.
Open Scope R_scope.

(** heights that increase strictly from [a] to [b] *)
Definition climbs (l : list R) (a b : R) : Prop := StronglySorted Rlt l /\ hd_error l = Some a /\ nth_error l (List.length l - 1) = Some b.
(** symmetric about the height h: the i-th point from below is as far from the bottom wall as the i-th from above from height 2 h *)
Definition symmetricAbout (h : R) (l : list R) : Prop :=
  forall i a b, nth_error l i = Some a -> nth_error l (List.length l - 1 - i) = Some b -> a + b = 2 * h.
(** successive spacings of three neighbouring points grow by the factor r *)
Definition growsBy (r : R) (l : list R) : Prop :=
  forall i a b c, nth_error l i = Some a -> nth_error l (S i) = Some b -> nth_error l (S (S i)) = Some c -> c - b = r * (b - a).
(** the distance of neighbouring points of a list *)
Definition spacing (l : list R) (d : R) : Prop := exists i a b, nth_error l i = Some a /\ nth_error l (S i) = Some b /\ d = b - a.
(** one wall unit y+ = 1: nu / u_tau with u_tau = ReTau nu / delta, that is delta / ReTau *)
Definition wallUnit (delta ReTau : R) : R := delta / ReTau.
