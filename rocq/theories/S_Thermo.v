(** Specification vocabulary for the equations of state. *)
From Coq Require Import Reals ZArith List Bool.
From Verif Require Import M_Topology M_Halo M_Grid M_Metrics S_Metrics S_Sum M_Flux M_FluxKernels S_FluxKernels M_Thermo.
Import ListNotations.
Open Scope R_scope.

(** gas data: at least one species, positive constants, and (calorically perfect) cp above R for every species *)
Definition goodGas (th : thtr) : Prop :=
  (1 <= ns th)%Z /\ 0 < Ru th /\ (forall n, (0 <= n < ns th)%Z -> 0 < MW th n).
Definition goodCp (th : thtr) : Prop := forall n, (0 <= n < ns th)%Z -> Ru th / MW th n < cp0 th n.
(** transported mass fractions of a cell (primitive / conserved); the last species is implied *)
Definition fracs (c : cell) (n : Z) : R := cq c (5 + n)%Z.
Definition partials (c : cell) (n : Z) : R := cQ c (5 + n)%Z.
Definition validFracs (nsp : Z) (y : Z -> R) : Prop :=
  (forall n, (0 <= n < nsp - 1)%Z -> 0 <= y n <= 1) /\ sumZ 0 (nsp - 1) y <= 1.
(** all ns mass fractions including the implied one *)
Definition withLast (nsp : Z) (y : Z -> R) : Z -> R := fun n => if (n =? nsp - 1)%Z then 1 - sumZ 0 (nsp - 1) y else y n.
(** mixture gas constant and heat capacity *)
Definition gasConstant (th : thtr) (y : Z -> R) : R := Ru th * sumZ 0 (ns th) (fun n => withLast (ns th) y n / MW th n).
Definition heatCapacity (th : thtr) (y : Z -> R) : R := sumZ 0 (ns th) (fun n => withLast (ns th) y n * cp0 th n).
Definition kinetic (c : cell) : R := dot3 (vel c) (vel c) / 2.
(** the entries the solver stores of a cell: 5+ns-1 in q and Q, 5+ns in qh *)
Definition sameq (nsp : Z) (a b : cell) : Prop := forall l, (0 <= l < 5 + nsp - 1)%Z -> cq a l = cq b l.
Definition sameQ (nsp : Z) (a b : cell) : Prop := forall l, (0 <= l < 5 + nsp - 1)%Z -> cQ a l = cQ b l.
Definition sameh (nsp : Z) (a b : cell) : Prop := forall l, (0 <= l < 5 + nsp)%Z -> ch a l = ch b l.
(** Q1..3 = rho u, E = rho e + kinetic, rho Y: the "coherent" of S_FluxKernels restricted to the stored species *)
Definition coherentN (nsp : Z) (c : cell) : Prop :=
  c_rho c <> 0 /\ cQ c 1%Z = c_rho c * c_u c /\ cQ c 2%Z = c_rho c * c_v c /\ cQ c 3%Z = c_rho c * c_w c /\
  c_E c = c_re c + c_rho c / 2 * dot3 (vel c) (vel c) /\ (forall l, (5 <= l < 5 + nsp - 1)%Z -> cQ c l = c_rho c * cq c l).

(** NASA seven-coefficient polynomials: heat capacity and its antiderivative, the enthalpy *)
Definition nasaRange (th : thtr) (n : Z) (T : R) : Z -> R :=
  fun k => if Rle_dec T (NASA7 th n 0%Z) then NASA7 th n (8 + k)%Z else NASA7 th n (1 + k)%Z.
Definition speciesCp (th : thtr) (n : Z) (T : R) : R :=
  let a := nasaRange th n T in
  Ru th / MW th n * (a 0%Z + a 1%Z * T + a 2%Z * T ^ 2 + a 3%Z * T ^ 3 + a 4%Z * T ^ 4).
Definition speciesH (th : thtr) (n : Z) (T : R) : R :=
  let a := nasaRange th n T in
  Ru th / MW th n * (a 5%Z + a 0%Z * T + a 1%Z / 2 * T ^ 2 + a 2%Z / 3 * T ^ 3 + a 3%Z / 4 * T ^ 4 + a 4%Z / 5 * T ^ 5).
Definition mixtureCp (th : thtr) (y : Z -> R) (T : R) : R := sumZ 0 (ns th) (fun n => withLast (ns th) y n * speciesCp th n T).
Definition mixtureH (th : thtr) (y : Z -> R) (T : R) : R := sumZ 0 (ns th) (fun n => withLast (ns th) y n * speciesH th n T).
Definition internalEnergy (th : thtr) (y : Z -> R) (T : R) : R := mixtureH th y T - gasConstant th y * T.
(** specific internal energy held by the conserved variables of a cell *)
Definition heldEnergy (c : cell) : R := (c_E c - (cQ c 1%Z ^ 2 + cQ c 2%Z ^ 2 + cQ c 3%Z ^ 2) / (2 * c_rho c)) / c_rho c.
(** T lies in the interior of a polynomial range of every species *)
Definition offBreak (th : thtr) (T : R) : Prop := forall n, (0 <= n < ns th)%Z -> T <> NASA7 th n 0%Z.
