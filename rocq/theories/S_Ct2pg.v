(** Specification of C119: the rates of progress and source terms that a Cantera mechanism stands for (law of mass action with
    modified Arrhenius, third-body, Lindemann and Troe rate constants), written without reference to the generated text. *)
From Coq Require Import Reals ZArith List.
From Verif Require Import M_Halo S_Sum M_Ct2pg.
Import ListNotations.
Open Scope R_scope.

Definition prodZ (lo hi : Z) (f : Z -> R) : R := fold_right Rmult 1 (map f (zrange lo hi)).
(** c to the power nu, for c >= 0 and nu >= 0 *)
Definition toThe (c nu : R) : R := if Req_EM_T nu 0 then 1 else if Req_EM_T c 0 then 0 else Rpower c nu.
(** A T^m exp(-Ea/(Ru T)); the activation energy is given divided by Ru *)
Definition arrheniusLaw (a : arrh) (T : R) : R := aA a * Rpower T (aM a) * exp (- aE a / T).
Definition lg (x : R) : R := ln x / ln 10.
(** concentration of the third body *)
Definition thirdBody (ns : Z) (t : rtype) (cs : Z -> R) : R := sumZ 0 ns (fun j => effOf t j * cs j).
Definition reducedPressure (ns : Z) (t : rtype) (hi low : arrh) (T : R) (cs : Z -> R) : R := thirdBody ns t cs * arrheniusLaw low T / arrheniusLaw hi T.
(** Troe's broadening: centring from the four coefficients [a; T3; T1; T2] (no last term if T2 = 0) *)
Definition centring (c : list R) (T : R) : R :=
  match c with
  | [a; T3; T1; T2] => (1 - a) * exp (- T / T3) + a * exp (- T / T1) + (if Req_EM_T T2 0 then 0 else exp (- T2 / T))
  | _ => 0
  end.
Definition troeC (F : R) : R := - (4/10) - 67/100 * lg F.
Definition troeN (F : R) : R := 75/100 - 127/100 * lg F.
Definition troeA (F Pr : R) : R := lg Pr + troeC F.
Definition broadening (F Pr : R) : R := Rpower 10 (lg F / (1 + (troeA F Pr / (troeN F - 14/100 * troeA F Pr)) ^ 2)).
(** the forward rate constant, third body included *)
Definition forwardLaw (ns : Z) (r : ctReac) (T : R) (cs : Z -> R) : R :=
  let k := arrheniusLaw (ctRate r) T in
  match ctType r with
  | RThree _ => k * thirdBody ns (ctType r) cs
  | RLindemann _ low => let Pr := reducedPressure ns (ctType r) (ctRate r) low T cs in k * (Pr / (1 + Pr))
  | RTroe _ low c => let Pr := reducedPressure ns (ctType r) (ctRate r) low T cs in k * (Pr / (1 + Pr) * broadening (centring c T) Pr)
  | _ => k
  end.
Definition netCoef (r : ctReac) (n : Z) : R := ctB r n - ctF r n.
(** K_c = (p_atm / (Ru T))^(sum of the net coefficients) * exp(- Delta G / (Ru T)) *)
Definition equilibrium (ns : Z) (Ru : R) (r : ctReac) (T : R) (gbs : Z -> R) : R :=
  Rpower (101325 / (Ru * T)) (sumZ 0 ns (netCoef r)) * exp (- sumZ 0 ns (fun n => netCoef r n * gbs n)).
(** net rate of progress *)
Definition progress (ns : Z) (Ru : R) (r : ctReac) (T : R) (cs gbs : Z -> R) : R :=
  let k := forwardLaw ns r T cs in
  k * prodZ 0 ns (fun n => toThe (cs n) (ctF r n))
  - (if ctRev r then k / equilibrium ns Ru r T gbs * prodZ 0 ns (fun n => toThe (cs n) (ctB r n)) else 0).
(** sum over the reactions of net coefficient times rate of progress *)
Definition production (ns : Z) (Ru : R) (rs : list ctReac) (T : R) (cs gbs : Z -> R) (n : Z) : R :=
  fold_right (fun r s => netCoef r n * progress ns Ru r T cs gbs + s) 0 rs.

(** An exponent that prints as itself: an integer, or farther than 1e-16 from every integer *)
Definition plainExponent (m : R) : Prop := (exists z, m = IZR z) \/ (forall z, / 10 ^ 16 < Rabs (m - IZR z)).
Definition okArrh (a : arrh) : Prop := 0 < aA a /\ plainExponent (aM a).
Definition okEff (ns : Z) (e : Z -> R) : Prop := (forall n, (0 <= n < ns)%Z -> 0 <= e n) /\ exists n, (0 <= n < ns)%Z /\ 0 < e n.
(** a reaction of a Cantera mechanism of the supported types: non-negative coefficients, a net change of some species, positive
    pre-exponential factors, and where there is a third body, some species counts *)
Definition okReaction (ns : Z) (r : ctReac) : Prop :=
  (forall n, (0 <= n < ns)%Z -> 0 <= ctF r n /\ 0 <= ctB r n) /\ (exists n, (0 <= n < ns)%Z /\ ctB r n <> ctF r n) /\ okArrh (ctRate r) /\
  match ctType r with
  | RArrhenius => True
  | RThree e => okEff ns e
  | RLindemann e low => okEff ns e /\ okArrh low
  | RTroe e low c => okEff ns e /\ okArrh low /\ exists a T3 T1 T2, c = [a; T3; T1; T2] /\ T3 <> 0 /\ T1 <> 0
  | ROther => False
  end.
(** a state in which the formulas make sense: positive temperature, no negative concentration, and for Troe reactions a positive
    centring, some third body, and no zero denominator *)
Definition okState (ns : Z) (rs : list ctReac) (T : R) (cs : Z -> R) : Prop :=
  0 < T /\ (forall n, (0 <= n < ns)%Z -> 0 <= cs n) /\
  forall r e low c, In r rs -> ctType r = RTroe e low c ->
    let Pr := reducedPressure ns (ctType r) (ctRate r) low T cs in
    0 < centring c T /\ 0 < thirdBody ns (ctType r) cs /\ troeN (centring c T) - 14/100 * troeA (centring c T) Pr <> 0.
