(** Specification for C125: the correlation of Chung, Ajlan, Lee and Starling (1988) for a pure fluid, as printed in Poling, Prausnitz and
    O'Connell (chapters 9-6 and 10-5), with association constant zero.  M in kg/kmol, Tc in K, V in cm^3/mol, density in mol/cm^3.
    Written without the model's helpers. *)
From Coq Require Import Reals ZArith List.
Import ListNotations.
Open Scope R_scope.

Section Fluid.
Variables (M Tc V w mr : R) (E B : Z -> R).
(** reduced density, collision integral, shape factor *)
Definition reducedDensity (molar : R) : R := molar * V / 6.
Definition collision (Ts : R) : R :=
  1.16145 * Rpower Ts (-0.14874) + 0.52487 * exp (-0.77320 * Ts) + 2.16178 * exp (-2.43787 * Ts).
Definition shape : R := 1 - 0.2756 * w + 0.059035 * mr ^ 4.
Definition g1 (y : R) : R := (1 - 0.5 * y) / (1 - y) ^ 3.
Definition g2 (c : Z -> R) (y : R) : R :=
  (c 1%Z * ((1 - exp (- c 4%Z * y)) / y) + c 2%Z * g1 y * exp (c 5%Z * y) + c 3%Z * g1 y) / (c 1%Z * c 4%Z + c 2%Z + c 3%Z).
(** viscosity in Pa s at temperature T and molar density: 36.344 (M Tc)^(1/2) / V^(2/3) micropoise times eta* *)
Definition etaStar (T molar : R) : R :=
  let Ts := 1.2593 * (T / Tc) in let y := reducedDensity molar in
  sqrt Ts / collision Ts * (shape * (/ g2 E y + E 6%Z * y)) + E 7%Z * y ^ 2 * g2 E y * exp (E 8%Z + E 9%Z / Ts + E 10%Z / Ts ^ 2).
Definition viscosity (T molar : R) : R := 36.344 * sqrt (M * Tc) / Rpower V (2/3) * etaStar T molar / 10 ^ 7.
(** dilute-gas viscosity in poise and the conductivity in W/(m K); cv is the molar heat capacity at constant volume divided by Ru *)
Definition dilute (T : R) : R := 4.0785 / 10 ^ 5 * sqrt (M * T) / (Rpower V (2/3) * collision (1.2593 * (T / Tc))) * shape.
Definition psi (T cv : R) : R :=
  let a := cv - 1.5 in let b := 0.7862 - 0.7109 * w + 1.3168 * w ^ 2 in let z := 2 + 10.5 * (T / Tc) ^ 2 in
  1 + a * ((0.215 + 0.28288 * a - 1.061 * b + 0.26665 * z) / (0.6366 + b * z + 1.061 * a * b)).
Definition conductivity (T molar cv : R) : R :=
  let y := reducedDensity molar in
  418.68 * (7.452 * dilute T / M * psi T cv * (/ g2 B y + B 6%Z * y) +
            3.039 / 10 ^ 4 * sqrt (Tc / M) / Rpower V (2/3) * B 7%Z * y ^ 2 * sqrt (T / Tc) * g2 B y).
End Fluid.
(** reduced dipole moment, dipole in Debye *)
Definition reducedDipole (debye V Tc : R) : R := 131.3 * debye / sqrt (V * Tc).

(** the constants of the correlation: rows 1-10 for viscosity, 1-7 for conductivity; the third index (association) is not used *)
Definition rowsE : list (R * R * R) :=
  [(6.324, 50.412, -51.680); (0.001210, -0.001154, -0.006257); (5.283, 254.209, -168.480); (6.623, 38.096, -8.464); (19.745, 7.630, -14.354);
   (-1.900, -12.537, 4.985); (24.275, 3.450, -11.291); (0.7972, 1.117, 0.01235); (-0.2382, 0.06770, -0.8163); (0.06863, 0.3479, 0.5926)].
Definition rowsB : list (R * R * R) :=
  [(2.41657, 0.74824, -0.91858); (-0.50924, -1.50936, -49.99120); (6.61069, 5.62073, 64.75990); (14.54250, -8.91387, -5.63794);
   (0.79274, 0.82019, -0.69369); (-5.86340, 12.80050, 9.58926); (81.17100, 114.15800, -60.84100)].
Definition coefficient (rows : list (R * R * R)) (w mr : R) (i : Z) : R :=
  let '(a, b, c) := nth (Z.to_nat (i - 1)) rows (0, 0, 0) in a + b * w + c * mr ^ 4.
