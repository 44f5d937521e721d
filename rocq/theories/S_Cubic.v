(** Specification vocabulary for the real-gas (Peng-Robinson) equation of state. *)
From Coq Require Import Reals ZArith List.
From Verif Require Import M_FluxKernels S_Sum M_Thermo S_Thermo.
Open Scope R_scope.

(** The Peng-Robinson equation for the compressibility factor Z, with the dimensionless attraction A and co-volume B. *)
Definition pengRobinson (A B Z : R) : Prop :=
  Z ^ 3 - (1 - B) * Z ^ 2 + (A - 3 * B ^ 2 - 2 * B) * Z - (A * B - B ^ 2 - B ^ 3) = 0.
(** the same law as a pressure: volume v, co-volume b, attraction a *)
Definition pengRobinsonPressure (RuT a b v p : R) : Prop :=
  v > b /\ p = RuT / (v - b) - a / (v ^ 2 + 2 * b * v - b ^ 2).
(** mole fractions, and van der Waals mixing of the species' a and b *)
Definition molesPerMass (th : thtr) (y : Z -> R) : R := sumZ 0 (ns th) (fun n => withLast (ns th) y n / MW th n).
Definition moleFrac (th : thtr) (y : Z -> R) (n : Z) : R := withLast (ns th) y n / MW th n / molesPerMass th y.
Definition speciesA (th : thtr) (T : R) (n : Z) : R :=
  45724 / 100000 * (Ru th * Tcrit th n) ^ 2 / pcrit th n *
  (1 + (37464 / 100000 + 154226 / 100000 * acentric th n - 26992 / 100000 * acentric th n ^ 2) * (1 - sqrt (T / Tcrit th n))) ^ 2.
Definition speciesB (th : thtr) (n : Z) : R := 77796 / 1000000 * Ru th * Tcrit th n / pcrit th n.
Definition mixtureA (th : thtr) (y : Z -> R) (T : R) : R :=
  sumZ 0 (ns th) (fun n => sumZ 0 (ns th) (fun m => moleFrac th y n * moleFrac th y m * sqrt (speciesA th T n * speciesA th T m))).
Definition mixtureB (th : thtr) (y : Z -> R) : R := sumZ 0 (ns th) (fun n => moleFrac th y n * speciesB th n).
Definition goodCrit (th : thtr) : Prop := forall n, (0 <= n < ns th)%Z -> 0 < Tcrit th n /\ 0 < pcrit th n.
