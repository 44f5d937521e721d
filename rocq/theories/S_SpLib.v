(** Specification vocabulary for C153: gases made of species of the library that comes with the code. *)
From Coq Require Import Reals QArith Qreals ZArith String List.
From Verif Require Import M_Config M_Species M_Thermo S_Thermo M_SpLib.
Import ListNotations.
Local Open Scope R_scope.

(** the properties under a species' name, and one of them *)
Definition entry (name key : string) : option lval := match lookup name library with Some d => lookup key d | None => None end.
Definition number (name key : string) : option R := match entry name key with Some (LNum q) => Some (Q2R q) | _ => None end.
Definition numbers (name key : string) : option (list R) := match entry name key with Some (LLst l) => Some (map Q2R l) | _ => None end.
Definition inLibrary (name : string) : Prop := exists d, In (name, d) library.
Definition hasNasa (name : string) : Prop := exists l, numbers name "NASA7" = Some l.
(** the gas data the code gets when it is asked for these species by name: each array is the one completed from the library, and what is in the view *)
Definition gasOf (parse : string -> option R) (names : list string) (th : thtr) : Prop :=
  names <> [] /\ NoDup names /\ exists aM M aN N, completeSpecies parse "MW" (fromNames names) refsp = SOk aM /\ createView1 (List.length names) aM = SOk M /\
    completeSpecies parse "NASA7" (fromNames names) refsp = SOk aN /\ createView2 (List.length names) 15 aN = SOk N /\
    ns th = Z.of_nat (List.length names) /\ 0 < Ru th /\
    (forall i m, nth_error M i = Some (Num m) -> MW th (Z.of_nat i) = m) /\
    (forall i r k x, nth_error N i = Some r -> nth_error r k = Some (Num x) -> NASA7 th (Z.of_nat i) (Z.of_nat k) = x).
(** both temperatures in the same range of every species *)
Definition sameRange (th : thtr) (T1 T2 : R) : Prop := forall n, (0 <= n < ns th)%Z -> (T1 <= NASA7 th n 0%Z <-> T2 <= NASA7 th n 0%Z).
(** standard atomic weights (IUPAC, abridged) *)
Definition atomicWeight : list (string * Q) := [("H", 1008 # 1000); ("C", 12011 # 1000); ("N", 14007 # 1000); ("O", 15999 # 1000); ("F", 18998 # 1000); ("S", 3206 # 100); ("Ar", 3995 # 100)]%string%Q.
(** weight of a formula unit: the sum over its elements; None when one of them has no weight *)
Fixpoint weight (l : list (string * Q)) : option Q :=
  match l with [] => Some 0%Q | (e, n) :: r => match lookup e atomicWeight, weight r with Some w, Some s => Some (n * w + s)%Q | _, _ => None end end.
(** heat capacity of a species at a temperature from its own seven coefficients, over its gas constant *)
Definition fitCp (c : list R) (T : R) : R :=
  let a k := nth k c 0 in let m := if Rle_dec T (a 0%nat) then 8%nat else 1%nat in
  a m + a (m + 1)%nat * T + a (m + 2)%nat * T ^ 2 + a (m + 3)%nat * T ^ 3 + a (m + 4)%nat * T ^ 4.
