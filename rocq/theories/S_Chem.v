(** Specification of the chemistry properties: the atoms of each species, element and mass balance, chemical potentials, equilibrium.
    The formula tables are read off the species names (generated by tools/chemtables.py). *)
From Coq Require Import Reals ZArith List.
From Verif Require Import M_Halo S_Sum M_Thermo S_Thermo M_Chem.
Import ListNotations.
Open Scope R_scope.

Inductive elem := eH | eC | eO | eN | eAr.
Definition formula := list (elem * Z).
Definition elem_eqb (a b : elem) : bool := match a, b with eH, eH | eC, eC | eO, eO | eN, eN | eAr, eAr => true | _, _ => false end.
(** number of atoms of e in a formula *)
Definition count (f : formula) (e : elem) : Z := fold_right (fun ec s => if elem_eqb (fst ec) e then snd ec + s else s)%Z 0%Z f.
(** number of atoms of element e in species n of a mechanism *)
Definition atomsOf (t : list formula) (n : Z) (e : elem) : Z := count (nth (Z.to_nat n) t []) e.

Definition ffcmy_formulas : list formula := [
  (* H2 *) [(eH, 2%Z)];
  (* H *) [(eH, 1%Z)];
  (* O2 *) [(eO, 2%Z)];
  (* O *) [(eO, 1%Z)];
  (* OH *) [(eO, 1%Z); (eH, 1%Z)];
  (* HO2 *) [(eH, 1%Z); (eO, 2%Z)];
  (* H2O *) [(eH, 2%Z); (eO, 1%Z)];
  (* CH3 *) [(eC, 1%Z); (eH, 3%Z)];
  (* CH4 *) [(eC, 1%Z); (eH, 4%Z)];
  (* CO *) [(eC, 1%Z); (eO, 1%Z)];
  (* CH2O *) [(eC, 1%Z); (eH, 2%Z); (eO, 1%Z)];
  (* CO2 *) [(eC, 1%Z); (eO, 2%Z)]
].
Definition skeletal_formulas : list formula := [
  (* H2 *) [(eH, 2%Z)];
  (* H *) [(eH, 1%Z)];
  (* O *) [(eO, 1%Z)];
  (* O2 *) [(eO, 2%Z)];
  (* OH *) [(eO, 1%Z); (eH, 1%Z)];
  (* H2O *) [(eH, 2%Z); (eO, 1%Z)];
  (* HO2 *) [(eH, 1%Z); (eO, 2%Z)];
  (* H2O2 *) [(eH, 2%Z); (eO, 2%Z)];
  (* CH *) [(eC, 1%Z); (eH, 1%Z)];
  (* CH2 *) [(eC, 1%Z); (eH, 2%Z)];
  (* CH2 *) [(eC, 1%Z); (eH, 2%Z)];
  (* CH3 *) [(eC, 1%Z); (eH, 3%Z)];
  (* CH4 *) [(eC, 1%Z); (eH, 4%Z)];
  (* CO *) [(eC, 1%Z); (eO, 1%Z)];
  (* CO2 *) [(eC, 1%Z); (eO, 2%Z)];
  (* HCO *) [(eH, 1%Z); (eC, 1%Z); (eO, 1%Z)];
  (* CH2O *) [(eC, 1%Z); (eH, 2%Z); (eO, 1%Z)];
  (* CH3O *) [(eC, 1%Z); (eH, 3%Z); (eO, 1%Z)];
  (* C2H2 *) [(eC, 2%Z); (eH, 2%Z)];
  (* H2CC *) [(eH, 2%Z); (eC, 2%Z)];
  (* C2H3 *) [(eC, 2%Z); (eH, 3%Z)];
  (* C2H4 *) [(eC, 2%Z); (eH, 4%Z)];
  (* C2H5 *) [(eC, 2%Z); (eH, 5%Z)];
  (* C2H6 *) [(eC, 2%Z); (eH, 6%Z)];
  (* HCCO *) [(eH, 1%Z); (eC, 2%Z); (eO, 1%Z)];
  (* CH2CO *) [(eC, 2%Z); (eH, 2%Z); (eO, 1%Z)];
  (* CH2CHO *) [(eC, 2%Z); (eH, 3%Z); (eO, 1%Z)];
  (* CH3CHO *) [(eC, 2%Z); (eH, 4%Z); (eO, 1%Z)];
  (* aC3H5 *) [(eC, 3%Z); (eH, 5%Z)];
  (* C3H6 *) [(eC, 3%Z); (eH, 6%Z)];
  (* nC3H7 *) [(eC, 3%Z); (eH, 7%Z)];
  (* N2 *) [(eN, 2%Z)]
].
Definition gri30_formulas : list formula := [
  (* H2 *) [(eH, 2%Z)];
  (* H *) [(eH, 1%Z)];
  (* O *) [(eO, 1%Z)];
  (* O2 *) [(eO, 2%Z)];
  (* OH *) [(eO, 1%Z); (eH, 1%Z)];
  (* H2O *) [(eH, 2%Z); (eO, 1%Z)];
  (* HO2 *) [(eH, 1%Z); (eO, 2%Z)];
  (* H2O2 *) [(eH, 2%Z); (eO, 2%Z)];
  (* C *) [(eC, 1%Z)];
  (* CH *) [(eC, 1%Z); (eH, 1%Z)];
  (* CH2 *) [(eC, 1%Z); (eH, 2%Z)];
  (* CH2(S) *) [(eC, 1%Z); (eH, 2%Z)];
  (* CH3 *) [(eC, 1%Z); (eH, 3%Z)];
  (* CH4 *) [(eC, 1%Z); (eH, 4%Z)];
  (* CO *) [(eC, 1%Z); (eO, 1%Z)];
  (* CO2 *) [(eC, 1%Z); (eO, 2%Z)];
  (* HCO *) [(eH, 1%Z); (eC, 1%Z); (eO, 1%Z)];
  (* CH2O *) [(eC, 1%Z); (eH, 2%Z); (eO, 1%Z)];
  (* CH2OH *) [(eC, 1%Z); (eH, 3%Z); (eO, 1%Z)];
  (* CH3O *) [(eC, 1%Z); (eH, 3%Z); (eO, 1%Z)];
  (* CH3OH *) [(eC, 1%Z); (eH, 4%Z); (eO, 1%Z)];
  (* C2H *) [(eC, 2%Z); (eH, 1%Z)];
  (* C2H2 *) [(eC, 2%Z); (eH, 2%Z)];
  (* C2H3 *) [(eC, 2%Z); (eH, 3%Z)];
  (* C2H4 *) [(eC, 2%Z); (eH, 4%Z)];
  (* C2H5 *) [(eC, 2%Z); (eH, 5%Z)];
  (* C2H6 *) [(eC, 2%Z); (eH, 6%Z)];
  (* HCCO *) [(eH, 1%Z); (eC, 2%Z); (eO, 1%Z)];
  (* CH2CO *) [(eC, 2%Z); (eH, 2%Z); (eO, 1%Z)];
  (* HCCOH *) [(eH, 2%Z); (eC, 2%Z); (eO, 1%Z)];
  (* N *) [(eN, 1%Z)];
  (* NH *) [(eN, 1%Z); (eH, 1%Z)];
  (* NH2 *) [(eN, 1%Z); (eH, 2%Z)];
  (* NH3 *) [(eN, 1%Z); (eH, 3%Z)];
  (* NNH *) [(eN, 2%Z); (eH, 1%Z)];
  (* NO *) [(eN, 1%Z); (eO, 1%Z)];
  (* NO2 *) [(eN, 1%Z); (eO, 2%Z)];
  (* N2O *) [(eN, 2%Z); (eO, 1%Z)];
  (* HNO *) [(eH, 1%Z); (eN, 1%Z); (eO, 1%Z)];
  (* CN *) [(eC, 1%Z); (eN, 1%Z)];
  (* HCN *) [(eH, 1%Z); (eC, 1%Z); (eN, 1%Z)];
  (* H2CN *) [(eH, 2%Z); (eC, 1%Z); (eN, 1%Z)];
  (* HCNN *) [(eH, 1%Z); (eC, 1%Z); (eN, 2%Z)];
  (* HCNO *) [(eH, 1%Z); (eC, 1%Z); (eN, 1%Z); (eO, 1%Z)];
  (* HOCN *) [(eH, 1%Z); (eO, 1%Z); (eC, 1%Z); (eN, 1%Z)];
  (* HNCO *) [(eH, 1%Z); (eN, 1%Z); (eC, 1%Z); (eO, 1%Z)];
  (* NCO *) [(eN, 1%Z); (eC, 1%Z); (eO, 1%Z)];
  (* N2 *) [(eN, 2%Z)];
  (* AR *) [(eAr, 1%Z)];
  (* C3H7 *) [(eC, 3%Z); (eH, 7%Z)];
  (* C3H8 *) [(eC, 3%Z); (eH, 8%Z)];
  (* CH2CHO *) [(eC, 2%Z); (eH, 3%Z); (eO, 1%Z)];
  (* CH3CHO *) [(eC, 2%Z); (eH, 4%Z); (eO, 1%Z)]
].
(** moles of element e per unit mass of a mixture with mass fractions Y *)
Definition elementContent (t : list formula) (th : thtr) (nsp : Z) (e : elem) (Y : Z -> R) : R :=
  sumZ 0 nsp (fun n => IZR (atomsOf t n e) * (Y n / MW th n)).
(** the molecular weights are sums of atomic weights *)
Definition atomicWeights (t : list formula) (th : thtr) (nsp : Z) (w : elem -> R) : Prop :=
  forall n, (0 <= n < nsp)%Z -> MW th n = IZR (atomsOf t n eH) * w eH + IZR (atomsOf t n eC) * w eC + IZR (atomsOf t n eO) * w eO
                                        + IZR (atomsOf t n eN) * w eN + IZR (atomsOf t n eAr) * w eAr.
Definition positiveMW (th : thtr) (nsp : Z) : Prop := forall n, (0 <= n < nsp)%Z -> 0 < MW th n.
(** the power with which species n enters a concentration product, and the net molecularity of a reaction *)
Definition power (l : list (Z * Z)) (n : Z) : Z := fold_right (fun ip s => if fst ip =? n then snd ip + s else s)%Z 0%Z l.
Definition net (r : reac) (n : Z) : Z := (power (rB r) n - power (rF r) n)%Z.
(** chemical potential over Ru*T of species n at concentration c, given its standard value g at 1 atm (prefRuT = p_atm / (Ru T)) *)
Definition potential (gbs cs : Z -> R) (prefRuT : R) (n : Z) : R := gbs n + ln (cs n / prefRuT).
(** Gibbs energy change of a reaction, over Ru*T *)
Definition reactionGibbs (nsp : Z) (r : reac) (mu : Z -> R) : R := sumZ 0 nsp (fun n => IZR (net r n) * mu n).
(** increment of the partial densities made by the kernel, the last species holding the rest of the (unchanged) density *)
Definition increments (nsp : Z) (dQ dQ' : Z -> R) (n : Z) : R :=
  if (n =? nsp - 1)%Z then - sumZ 0 (nsp - 1) (fun m => dQ' (5 + m)%Z - dQ (5 + m)%Z) else dQ' (5 + n)%Z - dQ (5 + n)%Z.
