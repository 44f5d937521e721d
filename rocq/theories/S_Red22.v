(** Specification for the reduced mechanism: which species it transports, which it holds in quasi-steady state, and what a set of net reaction
    rates produces of each. *)
From Coq Require Import Reals ZArith List.
From Verif Require Import S_Chem M_Red22.
Import ListNotations.
Open Scope R_scope.

(** the 32 species of the parent mechanism are those of skeletal_formulas (S_Chem.v): 0 H2, 1 H, 2 O, 3 O2, 4 OH, 5 H2O, 6 HO2, 7 H2O2, 8 CH, 9 CH2, 10 CH2s,
    11 CH3, 12 CH4, 13 CO, 14 CO2, 15 HCO, 16 CH2O, 17 CH3O, 18 C2H2, 19 H2CC, 20 C2H3, 21 C2H4, 22 C2H5, 23 C2H6, 24 HCCO, 25 CH2CO, 26 CH2CHO,
    27 CH3CHO, 28 aC3H5, 29 C3H6, 30 nC3H7, 31 N2.  These are transported, in this order: *)
Definition kept : list nat := [0; 1; 2; 3; 4; 5; 6; 7; 11; 12; 13; 14; 16; 18; 21; 23; 24; 25; 27; 28; 29; 31]%nat.
(** and these are held in quasi-steady state *)
Definition steady : list nat := [8; 9; 10; 15; 17; 19; 20; 22; 26; 30]%nat.
Definition red22_formulas : list formula := map (fun i => nth i skeletal_formulas []) kept.

(** molecules of species s made by one turn of a reaction: products less reactants *)
Definition change (r : reac22) (s : nat) : Z := (Z.of_nat (count_occ Nat.eq_dec (rProd r) s) - Z.of_nat (count_occ Nat.eq_dec (rReac r) s))%Z.
(** net molar production of species s when reaction n proceeds at net rate rop n *)
Fixpoint productionFrom (rs : list reac22) (n : nat) (rop : nat -> R) (s : nat) : R :=
  match rs with [] => 0 | r :: rs' => IZR (change r s) * rop n + productionFrom rs' (S n) rop s end.
Definition production (m : mech22) (rop : nat -> R) (s : nat) : R := productionFrom (mReacs m) 0 rop s.
(** the mass fraction of oxygen *)
Definition oxygen (Y : Z -> R) : R := Y 3%Z.
(** concentration of any of the 31 reacting species: transported ones from cs, steady ones from XQ *)
Fixpoint position (s : nat) (l : list nat) : option nat :=
  match l with [] => None | a :: l' => if Nat.eqb a s then Some O else match position s l' with Some k => Some (S k) | None => None end end.
Definition concentration (cs XQ : nat -> R) (s : nat) : R :=
  match position s kept with Some k => cs k | None => match position s steady with Some k => XQ k | None => 1 end end.
(** chemical potential over Ru T of a species at concentration c: ln of the concentration over that of an ideal gas at 1 atm, less the exponent SMH = S/R - H/(RT) *)
Definition potential22 (m : mech22) (T : R) (c : nat -> R) (s : nat) : R := ln (c s / pref22 T) - ln (eg22 m T s).
(** Gibbs energy change of a reaction over Ru T *)
Definition gibbsChange (r : reac22) (mu : nat -> R) : R := fold_right (fun s a => mu s + a) 0 (rProd r) - fold_right (fun s a => mu s + a) 0 (rReac r).
