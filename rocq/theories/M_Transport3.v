(** Model of src/compute/transport/kineticTheoryUnityLewis.cpp and chungDenseGasUnityLewis.cpp, one cell at a time, and of
    src/peregrinepy/thermoTransport/chungDenseGas.py with chungConstants.py.  Exact real arithmetic; pow(x, y) with a fractional y is
    Rpower x y.  Definitions only. *)
From Coq Require Import Reals ZArith List Bool.
From Verif Require Import M_Topology M_Halo M_Grid M_Thermo M_Transport.
Import ListNotations.
Open Scope R_scope.

(** ** kineticTheoryUnityLewis.cpp *)
(** a cell: T, q(5+n), rho = Q(.,0), cp = qh(.,1), old qt *)
Definition ulInput := (R * (Z -> R) * R * R * (Z -> R))%type.
(** kineticTheoryUnityLewis.cpp:47-134: the scratch arrays mu_sp and kappa_sp and qt after the cell.  Y and X are overwritten before use *)
Definition ulCell (t : ktab) (smu skap : Z -> R) (c : ulInput) : (Z -> R) * (Z -> R) * (Z -> R) :=
  let '(T, y, rho, cp, qt) := c in
  let nsp := kN t in
  let X := trX nsp (kMW t) (trY nsp y) in
  let logT := ln T in let sqrtT := exp (5/10 * logT) in
  let inN n := ((0 <=? n) && (n <? nsp))%Z%bool in
  let mu n := if inN n then polyInto (smu n) (kMuPoly t n) logT * sqrtT else smu n in
  let kap n := if inN n then polyInto (skap n) (kKappaPoly t n) logT * sqrtT else skap n in
  let m := mixMu nsp (kMW t) mu X in
  let k := mixKappa nsp kap X in
  (mu, kap, fun l => if (l =? 0)%Z then m else if (l =? 1)%Z then k else if ((2 <=? l) && (l <=? 2 + nsp - 1))%Z%bool then k / (rho * cp) else qt l).
(** the default build: scratch views zero at launch, kept from cell to cell (kineticTheoryUnityLewis.cpp:10-19, 41-46) *)
Fixpoint ulThread (t : ktab) (smu skap : Z -> R) (cs : list ulInput) : list (Z -> R) :=
  match cs with [] => [] | c :: cs' => let '(mu, kap, o) := ulCell t smu skap c in o :: ulThread t mu kap cs' end.
Definition kineticTheoryUL (t : ktab) (cs : list ulInput) : list (Z -> R) := ulThread t (fun _ => 0) (fun _ => 0) cs.
(** the NSCOMPILE build: zeroed local arrays (kineticTheoryUnityLewis.cpp:48-53) *)
Definition kineticTheoryULNS (t : ktab) (cs : list ulInput) : list (Z -> R) := map (fun c => snd (ulCell t (fun _ => 0) (fun _ => 0) c)) cs.

(** ** chungDenseGas.py *)
(** chungConstants.py:3-16, columns 0-2 *)
Definition viscConsts (i : Z) : R * R * R :=
  match i with
  | 0%Z => (6324/1000, 50412/1000, -51680/1000)
  | 1%Z => (121/100000, -1154/1000000, -6257/1000000)
  | 2%Z => (5283/1000, 254209/1000, -16848/100)
  | 3%Z => (6623/1000, 38096/1000, -8464/1000)
  | 4%Z => (19745/1000, 7630/1000, -14354/1000)
  | 5%Z => (-1900/1000, -12537/1000, 4985/1000)
  | 6%Z => (24275/1000, 3450/1000, -11291/1000)
  | 7%Z => (7972/10000, 1117/1000, 1235/100000)
  | 8%Z => (-2382/10000, 6770/100000, -8163/10000)
  | _ => (6863/100000, 3479/10000, 5926/10000)
  end.
(** chungConstants.py:19-29, columns 0-2 *)
Definition conductConsts (i : Z) : R * R * R :=
  match i with
  | 0%Z => (241657/100000, 74824/100000, -91858/100000)
  | 1%Z => (-50924/100000, -150936/100000, -4999120/100000)
  | 2%Z => (661069/100000, 562073/100000, 6475990/100000)
  | 3%Z => (1454250/100000, -891387/100000, -563794/100000)
  | 4%Z => (79274/100000, 82019/100000, -69369/100000)
  | 5%Z => (-586340/100000, 1280050/100000, 958926/100000)
  | _ => (8117100/100000, 11415800/100000, -6084100/100000)
  end.
(** species data: MW, Tcrit, Vcrit, acentric, dipole *)
Record chSpecies := mkCh { cMW : R; cTc : R; cVc : R; cAc : R; cDip : R }.
(** chungDenseGas.py:25-29; 3.33564e-30 C m per Debye *)
Definition redDipole (s : chSpecies) : R := let dp := cDip s / (333564 / 10 ^ 35) in let Vc := cVc s * cMW s * 1000 in 1313/10 * dp / sqrt (Vc * cTc s).
(** chungDenseGas.py:30-42 *)
Definition chungA (s : chSpecies) (i : Z) : R := let '(a, b, c) := viscConsts i in a + b * cAc s + c * redDipole s ^ 4.
Definition chungB (s : chSpecies) (i : Z) : R := let '(a, b, c) := conductConsts i in a + b * cAc s + c * redDipole s ^ 4.

(** ** chungDenseGasUnityLewis.cpp *)
(** Vc: line 97 *)
Definition chVc (s : chSpecies) : R := cVc s * cMW s * 1000.
(** Tr, Tstar: lines 100-101 *)
Definition chTr (s : chSpecies) (T : R) : R := T / cTc s.
Definition chTstar (s : chSpecies) (T : R) : R := 12593/10000 * chTr s T.
(** Omegav: lines 87-92, 102-104 *)
Definition chOmega (Ts : R) : R := 116145/100000 * Rpower Ts (- (14874/100000)) + 52487/100000 * exp (- (77320/100000) * Ts) + 216178/100000 * exp (- (243787/100000) * Ts).
(** Fc: lines 106-107 *)
Definition chFc (s : chSpecies) : R := 1 - 2756/10000 * cAc s + 59035/1000000 * redDipole s ^ 4.
(** Yy: lines 121-122 *)
Definition chY (s : chSpecies) (rho : R) : R := rho / cMW s * (1/1000) * chVc s / 6.
(** G1: line 123 *)
Definition chG1 (y : R) : R := (1 - 5/10 * y) / (1 - y) ^ 3.
(** G2 and H2: lines 124-126, 165-167 *)
Definition chG2 (A : Z -> R) (y : R) : R :=
  (A 0%Z * (1 - exp (- A 3%Z * y)) / y + A 1%Z * chG1 y * exp (A 4%Z * y) + A 2%Z * chG1 y) / (A 0%Z * A 3%Z + A 1%Z + A 2%Z).
(** etaStarStar, etaStar, mu_sp: lines 128-135 *)
Definition chMu (s : chSpecies) (T rho : R) : R :=
  let A := chungA s in let Ts := chTstar s T in let y := chY s rho in let G2 := chG2 A y in
  let etaSS := A 6%Z * y ^ 2 * G2 * exp (A 7%Z + A 8%Z / Ts + A 9%Z * / Ts ^ 2) in
  let etaS := sqrt Ts / chOmega Ts * (chFc s / G2 + A 5%Z * y) + etaSS in
  etaS * (36344/1000) * sqrt (cMW s * cTc s) / Rpower (chVc s) (2/3) * / 10 ^ 7.
(** alpha, beta, eta0, Z, Psi, lambda0, lambdak, lambdap, kappa_sp: lines 138-176; gamma and cp are qh(.,0), qh(.,1) *)
Definition chKappa (s : chSpecies) (Ru T rho gamma cp : R) : R :=
  let B := chungB s in let Ts := chTstar s T in let Tr := chTr s T in let y := chY s rho in
  let alpha := cp * (1/1000) * cMW s / gamma / (Ru / 1000) - 15/10 in
  let beta := 7862/10000 - 7109/10000 * cAc s + 13168/10000 * cAc s ^ 2 in
  let eta0 := 40785 / 10 ^ 9 * sqrt (cMW s * T) / (Rpower (chVc s) (2/3) * chOmega Ts) * chFc s in
  let Z := 2 + 105/10 * Tr ^ 2 in
  let Psi := 1 + alpha * ((215/1000 + 28288/100000 * alpha - 1061/1000 * beta + 26665/100000 * Z) / (6366/10000 + beta * Z + 1061/1000 * alpha * beta)) in
  let lambda0 := 7452/1000 * eta0 / cMW s * Psi in
  let H2 := chG2 B y in
  let lambdak := lambda0 * (1 / H2 + B 5%Z * y) in
  let lambdap := (3039 / 10 ^ 7 * sqrt (cTc s / cMW s) / Rpower (chVc s) (2/3)) * B 6%Z * y ^ 2 * H2 * sqrt Tr in
  (lambdak + lambdap) * (41868/100).
(** Y with the last fraction clipped (lines 65-71) *)
Definition chFrac (nsp : Z) (y : Z -> R) : Z -> R := fun n => if (n =? nsp - 1)%Z then Rmax 0 (lastY nsp y) else y n.
(** the cell (lines 61-221): qt afterwards.  Every scratch entry is assigned before it is read *)
Definition chungCell (nsp : Z) (sp : Z -> chSpecies) (Ru T rho gamma cp : R) (y qt : Z -> R) (l : Z) : R :=
  let mw n := cMW (sp n) in
  let X := trX nsp mw (chFrac nsp y) in
  let m := mixMu nsp mw (fun n => chMu (sp n) T rho) X in
  let k := mixKappa nsp (fun n => chKappa (sp n) Ru T rho gamma cp) X in
  if (l =? 0)%Z then m else if (l =? 1)%Z then k else if ((2 <=? l) && (l <=? 2 + nsp - 1))%Z%bool then k / (rho * cp) else qt l.
