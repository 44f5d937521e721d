(** Independent specification for the block distribution (C62-C64, C97). *)
From Coq Require Import ZArith NArith Ascii List Bool Permutation.
From Coq Require Decimal.
Import ListNotations.

(** a file made of these lines *)
Definition unlines (ls : list (list ascii)) : list ascii := concat (map (fun l => l ++ ["010"%char]) ls).
Definition whitespace (l : list ascii) : Prop := forall c, In c l -> c = " "%char \/ c = "009"%char.
(** a line of text, in any encoding of line ends the two readers know *)
Definition oneLine (l : list ascii) : Prop := forall c, In c l -> (32 <= nat_of_ascii c)%nat \/ c = "009"%char.
(** a comment: a # after any white space *)
Definition commentLine (l : list ascii) : Prop := oneLine l /\ exists ws rest, l = ws ++ "#"%char :: rest /\ whitespace ws.
(** the decimal digits of a number *)
Fixpoint value (l : list ascii) (acc : N) : N := match l with [] => acc | c :: r => value r (10 * acc + (N.of_nat (nat_of_ascii c) - 48)) end%N.
Definition isNumeral (l : list ascii) (n : N) : Prop := l <> [] /\ (forall c, In c l -> (48 <= nat_of_ascii c <= 57)%nat) /\ value l 0%N = n.
(** the blocks 0..N-1 are each given to exactly one rank *)
Definition isPartition (groups : list (list Z)) (n : nat) : Prop :=
  forall b : nat, (b < n)%nat -> exists r, (forall g, nth_error groups r = Some g -> count_occ Z.eq_dec g (Z.of_nat b) = 1%nat) /\ (r < length groups)%nat /\
     forall r' g, r' <> r -> nth_error groups r' = Some g -> ~ In (Z.of_nat b) g.
Definition onlyBlocks (groups : list (list Z)) (n : nat) : Prop := forall g z, In g groups -> In z g -> (0 <= z < Z.of_nat n)%Z.
(** the rank that owns a block *)
Definition owns (groups : list (list Z)) (r : Z) (b : Z) : Prop := (0 <= r)%Z /\ exists g, nth_error groups (Z.to_nat r) = Some g /\ In b g.
(** the cells a group holds *)
Definition load (cells : N -> Z) (g : list N) : Z := fold_right Z.add 0%Z (map cells g).
