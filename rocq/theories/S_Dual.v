(** Specification vocabulary for the implicit dual-time update. *)
From Coq Require Import Reals ZArith List Bool.
From Verif Require Import M_Topology M_Halo M_Grid M_Metrics S_Metrics S_Sum M_Flux M_FluxKernels S_FluxKernels M_Thermo S_Thermo.
Open Scope R_scope.

(** matrix times vector, n equations *)
Definition mulMV (n : Z) (A : Z -> Z -> R) (x : Z -> R) (i : Z) : R := sumZ 0 n (fun j => A i j * x j).
(** nonsingular: only the zero vector is mapped to zero *)
Definition nonsingular (n : Z) (A : Z -> Z -> R) : Prop :=
  forall x, (forall i, (0 <= i < n)%Z -> mulMV n A x i = 0) -> forall j, (0 <= j < n)%Z -> x j = 0.
(** conserved variables (rho, rho u, rho E, rho Y) of an ideal gas mixture with species enthalpies hs as functions of the primitive
    variables q = (p, u, v, w, T, Y) *)
Definition density (th : thtr) (q : Z -> R) : R := q 0%Z / (gasConstant th (fun n => q (5 + n)%Z) * q 4%Z).
Definition enthalpyOf (th : thtr) (hs : Z -> R -> R) (q : Z -> R) : R := sumZ 0 (ns th) (fun n => withLast (ns th) (fun n => q (5 + n)%Z) n * hs n (q 4%Z)).
Definition conserved (th : thtr) (hs : Z -> R -> R) (q : Z -> R) (l : Z) : R :=
  let rho := density th q in
  if (l =? 0)%Z then rho
  else if (l =? 4)%Z then rho * (enthalpyOf th hs q + (q 1%Z * q 1%Z + q 2%Z * q 2%Z + q 3%Z * q 3%Z) / 2) - q 0%Z
  else rho * q l.
