(** Finite sums over integer ranges; used to state conservation and volume properties. *)
From Coq Require Import Reals ZArith List Lia Lra.
From Verif Require Import M_Halo.
Import ListNotations.
Open Scope R_scope.

(** sum of f i for lo <= i < hi *)
Definition sumZ (lo hi : Z) (f : Z -> R) : R := fold_right Rplus 0 (map f (zrange lo hi)).
Definition sum2 (lo1 hi1 lo2 hi2 : Z) (f : Z -> Z -> R) : R := sumZ lo1 hi1 (fun i => sumZ lo2 hi2 (f i)).
(** sum over a box of cells *)
Definition sum3 (l h : Z * Z * Z) (f : Z -> Z -> Z -> R) : R :=
  sumZ (fst (fst l)) (fst (fst h)) (fun i => sumZ (snd (fst l)) (snd (fst h)) (fun j => sumZ (snd l) (snd h) (fun k => f i j k))).
