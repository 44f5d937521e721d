(** Independent specification for restarted runs of a thermally perfect gas (C163). *)
From Coq Require Import Reals ZArith List Bool.
From Verif Require Import M_Topology M_Halo M_Grid M_Metrics S_Metrics S_Sum M_Flux M_FluxKernels S_FluxKernels M_Thermo S_Thermo.
Open Scope R_scope.

(** a cell as the solver keeps it between steps: ideal gas, momentum and partial densities those of the primitives, and the energy that of the temperature within the tolerance
    of the temperature iteration, 1e-8 J/kg *)
Definition settledTpg (th : thtr) (c : cell) : Prop :=
  validFracs (ns th) (fracs c) /\ 0 < c_rho c /\ 1 <= cq c 4%Z /\ c_p c = c_rho c * gasConstant th (fracs c) * cq c 4%Z /\
  cQ c 1%Z = c_rho c * c_u c /\ cQ c 2%Z = c_rho c * c_v c /\ cQ c 3%Z = c_rho c * c_w c /\ (forall n, (0 <= n < ns th - 1)%Z -> partials c n = c_rho c * fracs c n) /\
  Rabs (internalEnergy th (fracs c) (cq c 4%Z) - heldEnergy c) <= / 10 ^ 8.
(** the same primitives and conserved variables, but for a difference of at most 1e-8 J/kg in the energy *)
Definition almostSame (nsp : Z) (c c' : cell) : Prop :=
  sameq nsp c' c /\ (forall l, (0 <= l < 5 + nsp - 1)%Z -> l <> 4%Z -> cQ c' l = cQ c l) /\ Rabs (c_E c' - c_E c) <= c_rho c / 10 ^ 8.
