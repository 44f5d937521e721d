(** The order in which a directory listing, sorted by name, shows files. *)
From Coq Require Import Ascii List.
Import ListNotations.
(** dictionary order by character code *)
Inductive sortsBefore : list ascii -> list ascii -> Prop :=
  | SB_end : forall c s, sortsBefore [] (c :: s)
  | SB_here : forall c d r s, (nat_of_ascii c < nat_of_ascii d)%nat -> sortsBefore (c :: r) (d :: s)
  | SB_later : forall c r s, sortsBefore r s -> sortsBefore (c :: r) (c :: s).
