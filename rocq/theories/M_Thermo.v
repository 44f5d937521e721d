(** Model of src/compute/thermo/cpg.cpp, tpg.cpp and cubic.cpp, one cell at a time (the kernels write only the
    cell they are called on).  Exact real arithmetic; a 0/0 in the cubic root is [None] (NaN).
    Species n = 0 .. ns-1; the last one is implied.  pow is ^ or Rpower, log is ln. *)
From Coq Require Import Reals ZArith List Bool.
From Verif Require Import M_Topology M_Halo M_Grid M_Metrics M_Flux M_FluxKernels.
Import ListNotations.
Open Scope R_scope.

(** thtrdat_.hpp:10-47 (the entries the equations of state read).  NASA7 n 0 is the break temperature,
    1..7 the high range and 8..14 the low range coefficients. *)
Record thtr := mkTh { ns : Z; Ru : R; MW : Z -> R; cp0 : Z -> R; NASA7 : Z -> Z -> R;
                      Tcrit : Z -> R; pcrit : Z -> R; acentric : Z -> R }.

(** for (int n = lo; n < hi; n++) s += f(n), from s = 0 *)
Definition accum (lo hi : Z) (f : Z -> R) : R := fold_left (fun s n => s + f n) (zrange lo hi) 0.
(** Y(ns-1) = 1.0; for n < ns-1: Y(ns-1) -= Y(n)   (cpg.cpp:61-68, 167-175) *)
Definition lastY (nsp : Z) (y : Z -> R) : R := fold_left (fun s n => s - y n) (zrange 0 (nsp - 1)) 1.
(** The local array Y after "Renormalize if necessary" (cpg.cpp:61-76, 167-184; tpg.cpp:67-82, 207-224;
    cubic.cpp:107-127, 393-415), from the clipped fractions y of the first ns-1 species. *)
Definition composition (nsp : Z) (y : Z -> R) : Z -> R :=
  let testSum := accum 0 (nsp - 1) y in
  if Rlt_dec 1 testSum then fun n => if (n =? nsp - 1)%Z then 0 else y n / testSum
  else fun n => if (n =? nsp - 1)%Z then lastY nsp y else y n.
Definition isSpecies (nsp l : Z) : bool := ((5 <=? l) && (l <? 5 + nsp - 1))%Z%bool.

(** cpg.cpp:64: b.q(5+n) = fmax(fmin(b.q(5+n), 1.0), 0.0) *)
Definition clipPrims (nsp : Z) (q : Z -> R) : Z -> R := fun l => if isSpecies nsp l then Rmax (Rmin (q l) 1) 0 else q l.
(** cpg.cpp:170-171: b.Q(5+n) = fmax(fmin(b.Q(5+n), b.Q(0)), 0.0) *)
Definition clipCons (nsp : Z) (Q : Z -> R) : Z -> R := fun l => if isSpecies nsp l then Rmax (Rmin (Q l) (Q 0%Z)) 0 else Q l.
(** Y of the primitive branch and of the conserved branch *)
Definition primsY (nsp : Z) (q : Z -> R) : Z -> R := composition nsp (fun n => clipPrims nsp q (5 + n)%Z).
Definition rawConsY (nsp : Z) (Q : Z -> R) : Z -> R := fun n => clipCons nsp Q (5 + n)%Z / clipCons nsp Q 0%Z.
Definition consY (nsp : Z) (Q : Z -> R) : Z -> R := composition nsp (rawConsY nsp Q).
(** the conserved species after the conserved branch: rewritten only if renormalised (cpg.cpp:170-184) *)
Definition consQ (nsp : Z) (Q : Z -> R) : Z -> R := fun l =>
  if isSpecies nsp l then
    (if Rlt_dec 1 (accum 0 (nsp - 1) (rawConsY nsp Q)) then consY nsp Q (l - 5)%Z * Q 0%Z else clipCons nsp Q l)
  else Q l.
(** what the primitive branches store in Q (cpg.cpp:108-120, tpg.cpp:143-155, cubic.cpp:328-340) *)
Definition storeQ (nsp : Z) (old : Z -> R) (rho u v w rhoE : R) (Y : Z -> R) : Z -> R := fun l =>
  if (l =? 0)%Z then rho else if (l =? 1)%Z then rho * u else if (l =? 2)%Z then rho * v else if (l =? 3)%Z then rho * w
  else if (l =? 4)%Z then rhoE else if isSpecies nsp l then Y (l - 5)%Z * rho else old l.
(** what the conserved branches store in q (cpg.cpp:209-218) *)
Definition storeq (nsp : Z) (old : Z -> R) (p u v w T : R) (Y : Z -> R) : Z -> R := fun l =>
  if (l =? 0)%Z then p else if (l =? 1)%Z then u else if (l =? 2)%Z then v else if (l =? 3)%Z then w
  else if (l =? 4)%Z then T else if isSpecies nsp l then Y (l - 5)%Z else old l.
(** what both store in qh (cpg.cpp:121-129, 219-227) *)
Definition storeqh (nsp : Z) (old : Z -> R) (gamma cp rhoh c rhoe : R) (hi : Z -> R) : Z -> R := fun l =>
  if (l =? 0)%Z then gamma else if (l =? 1)%Z then cp else if (l =? 2)%Z then rhoh else if (l =? 3)%Z then c
  else if (l =? 4)%Z then rhoe else if ((5 <=? l) && (l <? 5 + nsp))%Z%bool then hi (l - 5)%Z else old l.

(** Rmix = Ru * sum Y/MW (cpg.cpp:79-85) and cp = sum Y cp0 (80-84) *)
Definition mixR (th : thtr) (Y : Z -> R) : R := accum 0 (ns th) (fun n => Y n / MW th n) * Ru th.
Definition mixCp0 (th : thtr) (Y : Z -> R) : R := accum 0 (ns th) (fun n => Y n * cp0 th n).
Definition halfSq (u v w : R) : R := 5/10 * (u ^ 2 + v ^ 2 + w ^ 2).

(** cpg.cpp:32-134 *)
Definition cpgPrims (th : thtr) (c : cell) : cell :=
  let q := clipPrims (ns th) (cq c) in let Y := primsY (ns th) (cq c) in
  let p := q 0%Z in let u := q 1%Z in let v := q 2%Z in let w := q 3%Z in let T := q 4%Z in
  let Rmix := mixR th Y in let cp := mixCp0 th Y in
  let h := cp * T in let gamma := cp / (cp - Rmix) in let cs := sqrt (gamma * Rmix * T) in
  let rho := p / (Rmix * T) in let tke := halfSq u v w * rho in
  let e := h - p / rho in
  mkCell (storeQ (ns th) (cQ c) rho u v w (rho * e + tke) Y) q
         (storeqh (ns th) (ch c) gamma cp (rho * h) cs (rho * e) (fun n => T * cp0 th n)).
(** cpg.cpp:135-232 *)
Definition cpgCons (th : thtr) (c : cell) : cell :=
  let Q := consQ (ns th) (cQ c) in let Y := consY (ns th) (cQ c) in
  let rho := Q 0%Z in let rhou := Q 1%Z in let rhov := Q 2%Z in let rhow := Q 3%Z in let rhoE := Q 4%Z in
  let tke := halfSq rhou rhov rhow / rho in
  let e := (rhoE - tke) / rho in
  let Rmix := mixR th Y in let cp := mixCp0 th Y in
  let T := e / (cp - Rmix) in let p := rho * Rmix * T in
  let h := e + p / rho in let gamma := cp / (cp - Rmix) in let cs := sqrt (gamma * Rmix * T) in
  mkCell Q (storeq (ns th) (cq c) p (rhou / rho) (rhov / rho) (rhow / rho) T Y)
         (storeqh (ns th) (ch c) gamma cp (rho * h) cs (rho * e) (fun n => T * cp0 th n)).

(** NASA polynomials (tpg.cpp:105-115, 257-269): species heat capacity and enthalpy *)
Definition nasaM (th : thtr) (n : Z) (T : R) : Z := if Rle_dec T (NASA7 th n 0%Z) then 8%Z else 1%Z.
Definition nasaCp (th : thtr) (n : Z) (T : R) : R :=
  let m := nasaM th n T in let a := fun k => NASA7 th n (m + k)%Z in
  (a 0%Z + a 1%Z * T + a 2%Z * T ^ 2 + a 3%Z * T ^ 3 + a 4%Z * T ^ 4) * Ru th / MW th n.
Definition nasaH (th : thtr) (n : Z) (T : R) : R :=
  let m := nasaM th n T in let a := fun k => NASA7 th n (m + k)%Z in
  (a 0%Z + a 1%Z * (T / 2) + a 2%Z * (T ^ 2 / 3) + a 3%Z * (T ^ 3 / 4) + a 4%Z * (T ^ 4 / 5) + a 5%Z * (1 / T)) * T * Ru th / MW th n.
Definition tpgCp (th : thtr) (Y : Z -> R) (T : R) : R := accum 0 (ns th) (fun n => nasaCp th n T * Y n).
Definition tpgH (th : thtr) (Y : Z -> R) (T : R) : R := accum 0 (ns th) (fun n => nasaH th n T * Y n).
(** tpg.cpp:35-170 *)
Definition tpgPrims (th : thtr) (c : cell) : cell :=
  let q := clipPrims (ns th) (cq c) in let Y := primsY (ns th) (cq c) in
  let p := q 0%Z in let u := q 1%Z in let v := q 2%Z in let w := q 3%Z in let T := q 4%Z in
  let Rmix := mixR th Y in let cp := tpgCp th Y T in let h := tpgH th Y T in
  let gamma := cp / (cp - Rmix) in let cs := sqrt (gamma * Rmix * T) in
  let rho := p / (Rmix * T) in let tke := halfSq u v w * rho in
  let e := h - p / rho in
  mkCell (storeQ (ns th) (cQ c) rho u v w (rho * e + tke) Y) q
         (storeqh (ns th) (ch c) gamma cp (rho * h) cs (rho * e) (fun n => nasaH th n T)).

(** The Newton loop (tpg.cpp:236-280, cubic.cpp:435-438, 457, 604-607): while |error| > tol and nitr < maxitr.
    [step T] is the residual and the new temperature computed at T; None is NaN, which ends the loop.
    Result: temperature, temperature of the last evaluation, residual of the last evaluation. *)
Definition tol : R := / 100000000.
Definition maxitr : nat := 100.
Fixpoint newton (fuel : nat) (step : R -> option (R * R)) (T Tlast : R) (err : option R) : option (R * R * R) :=
  match err with
  | None => None
  | Some er =>
    match fuel with
    | O => Some (T, Tlast, er)
    | S k => if Rlt_dec tol (Rabs er) then
               match step T with None => None | Some (er', T') => newton k step T' T (Some er') end
             else Some (T, Tlast, er)
    end
  end.
Definition firstGuess (T : R) : R := if Rlt_dec T 1 then 300 else T.
(** tpg.cpp:276-278 *)
Definition tpgStep (th : thtr) (Y : Z -> R) (e : R) (T : R) : option (R * R) :=
  let Rmix := mixR th Y in
  let error := e - (tpgH th Y T - Rmix * T) in
  Some (error, T - error / (- tpgCp th Y T + Rmix)).
Definition newtonRun (step : R -> option (R * R)) (T0 : R) : option (R * R * R) :=
  let T := firstGuess T0 in newton maxitr step T T (Some (10 ^ 100)).
(** tpg.cpp:172-313.  h, cp and hi are those of the last evaluation. *)
Definition tpgCons (th : thtr) (c : cell) : option cell :=
  let Q := consQ (ns th) (cQ c) in let Y := consY (ns th) (cQ c) in
  let rho := Q 0%Z in let rhou := Q 1%Z in let rhov := Q 2%Z in let rhow := Q 3%Z in let rhoE := Q 4%Z in
  let tke := halfSq rhou rhov rhow / rho in
  let e := (rhoE - tke) / rho in
  let Rmix := mixR th Y in
  match newtonRun (tpgStep th Y e) (cq c 4%Z) with
  | None => None
  | Some (T, Tl, _) =>
    let cp := tpgCp th Y Tl in let h := tpgH th Y Tl in
    let p := rho * Rmix * T in let gamma := cp / (cp - Rmix) in let cs := sqrt (gamma * Rmix * T) in
    Some (mkCell Q (storeq (ns th) (cq c) p (rhou / rho) (rhov / rho) (rhow / rho) T Y)
           (storeqh (ns th) (ch c) gamma cp (rho * h) cs (rho * e) (fun n => nasaH th n Tl)))
  end.

(** * cubic.cpp *)
(** Peng-Robinson constants (cubic.cpp:141-143, 424-426) *)
Definition uRG : R := 2. Definition wRG : R := -1.
Definition biConst : R := 77796 / 1000000. Definition aiConst : R := 457240 / 1000000.
Definition fw0 : R := 37464 / 100000. Definition fw1 : R := 154226 / 100000. Definition fw2 : R := - (26992 / 100000).
(** cubic.cpp:111-119: the denominator of the mole fractions, accumulated before renormalisation *)
Definition rgDenom (th : thtr) (y : Z -> R) : R :=
  accum 0 (ns th - 1) (fun n => y n / MW th n) + lastY (ns th) y / MW th (ns th - 1)%Z.
(** cubic.cpp:129-136 *)
Definition rgX (th : thtr) (denom : R) (Y : Z -> R) : Z -> R := fun n => Y n / MW th n / denom.
Definition rgMW (th : thtr) (X : Z -> R) : R := accum 0 (ns th) (fun n => MW th n * X n).
Definition fOmega (th : thtr) (n : Z) : R := fw0 + fw1 * acentric th n + fw2 * acentric th n ^ 2.
(** cubic.cpp:159-177, 465-483 *)
Definition rgAi (th : thtr) (T : R) (n : Z) : R :=
  let alpha := (1 + fOmega th n * (1 - sqrt (T / Tcrit th n))) ^ 2 in
  aiConst * ((Ru th * Tcrit th n) ^ 2 * alpha) / pcrit th n.
Definition rgBm (th : thtr) (X : Z -> R) : R := accum 0 (ns th) (fun n => X n * (biConst * (Ru th * Tcrit th n) / pcrit th n)).
Definition rgAm (th : thtr) (X : Z -> R) (T : R) : R :=
  accum 0 (ns th) (fun n => accum 0 (ns th) (fun n2 => X n * X n2 * sqrt (rgAi th T n * rgAi th T n2))).
(** cubic.cpp:179-188, 490-498 *)
Definition rgAstar (th : thtr) (am p T : R) : R := am * p / (Ru th * T) ^ 2.
Definition rgBstar (th : thtr) (bm p T : R) : R := bm * p / (Ru th * T).
Definition rgz0 (A B : R) : R := - (A * B + wRG * B ^ 2 + wRG * B ^ 2 * B).
Definition rgz1 (A B : R) : R := A + wRG * B ^ 2 - uRG * B - uRG * B ^ 2.
Definition rgz2 (A B : R) : R := - (1 + B - uRG * B).
(** cubic.cpp:190-212, 500-522.  Simplification: the literal 3.14159265358979323846 is PI. *)
Definition cubicRoot (z0 z1 z2 : R) : option R :=
  let Q := (z2 ^ 2 - 3 * z1) / 9 in
  let RR := (2 * z2 ^ 3 - 9 * z2 * z1 + 27 * z0) / 54 in
  let M := RR ^ 2 - Q ^ 3 in
  let z2o3 := z2 / 3 in
  if Rlt_dec 0 M then
    if Req_EM_T RR 0 then None                                     (* -RR/abs(RR) = 0/0 *)
    else let S := - RR / Rabs RR * Rpower (Rabs RR + sqrt M) (1 / 3) in Some (S + Q / S - z2o3)
  else
    if Req_EM_T Q 0 then None                                      (* RR/q1p5 = 0/0 *)
    else let q1p5 := Rpower Q (15 / 10) in let sqQ := sqrt Q in
         let theta := acos (RR / q1p5) in
         let x1 := - (2 * sqQ * cos (theta / 3)) - z2o3 in
         let x2 := - (2 * sqQ * cos ((theta + 2 * PI) / 3)) - z2o3 in
         let x3 := - (2 * sqQ * cos ((theta - 2 * PI) / 3)) - z2o3 in
         Some (Rmax x1 (Rmax x2 x3)).
(** cubic.cpp:214-292 and 523-602 (same text): departure functions, enthalpy, heat capacity *)
Record rgOut := mkRG { rg_h : R; rg_cp : R; rg_dZdT : R; rg_hi : Z -> R }.
Definition rgThermo (th : thtr) (X Y : Z -> R) (MWmix am bm A B Z T : R) : rgOut :=
  let ai := rgAi th T in
  let dam := accum 0 (ns th) (fun n => accum 0 (ns th) (fun n2 => X n2 * X n * 1 *
               (fOmega th n2 * sqrt (ai n * Tcrit th n2 / pcrit th n2) + fOmega th n * sqrt (ai n2 * Tcrit th n / pcrit th n))))
             * (- (5/10) * Ru th * sqrt (aiConst / T)) in
  let dA := - 2 * (A / T) * (1 - 5/10 * (T / am) * dam) in
  let dB := - B / T in
  let dz0 := - (B * dA + (A + (2 * B + 3 * B ^ 2) * wRG) * dB) in
  let dz1 := dA + (2 * B * (wRG - uRG) - uRG) * dB in
  let dz2 := - (1 - uRG) * dB in
  let dZdT := - (dz2 * Z ^ 2 + dz1 * Z + dz0) / (3 * Z ^ 2 + 2 * Z * rgz2 A B + rgz1 A B) in
  let sq := sqrt (uRG ^ 2 - 4 * wRG) in
  let Cuw := 1 / (bm * Ru th * sq) in
  let ZoB := Z / B in
  let logZoB := ln ((2 * ZoB + (uRG - sq)) / (2 * ZoB + (uRG + sq))) in
  let cpDep := Cuw * (am / T - dam) * logZoB * (5/10) * T / am * dam +
               ((ZoB ^ 2 + uRG * ZoB + wRG) - dam / (bm * Ru th) * (ZoB - 1)) ^ 2 /
               ((ZoB ^ 2 + uRG * ZoB + wRG) ^ 2 - am / (bm * Ru th * T) * (2 * ZoB + uRG) * (ZoB - 1) ^ 2) - 1 in
  let hDep := Cuw * (am / T - dam) * logZoB + (Z - 1) in
  mkRG (Ru th * T * hDep / MWmix + tpgH th Y T) (Ru th * cpDep / MWmix + tpgCp th Y T) dZdT
       (fun n => nasaH th n T + Ru th * T * hDep / MW th n).
(** cubic.cpp:298-315, 609-628: ratio of specific heats and sound speed *)
Definition rgGammaC (A B Z p T rho cp dZdT : R) : R * R :=
  let dA := A / p in let dB := B / p in
  let dz0 := - (B * dA + (A + (2 * B + 3 * B ^ 2) * wRG) * dB) in
  let dz1 := dA + (2 * B * (wRG - uRG) - uRG) * dB in
  let dz2 := - (1 - uRG) * dB in
  let dZdp := - (dz2 * Z ^ 2 + dz1 * Z + dz0) / (3 * Z ^ 2 + 2 * Z * rgz2 A B + rgz1 A B) in
  let drhodp := rho / p * (1 - p * dZdp / Z) in
  let drhodt := - (rho / T) * (1 + T * dZdT / Z) in
  let gamma := drhodp / (drhodp - T / cp * (drhodt / rho) ^ 2) in
  (gamma, sqrt (Rabs (gamma / drhodp))).
(** cubic.cpp:75-354 *)
Definition cubicPrims (th : thtr) (c : cell) : option cell :=
  let q := clipPrims (ns th) (cq c) in let Y := primsY (ns th) (cq c) in
  let p := q 0%Z in let u := q 1%Z in let v := q 2%Z in let w := q 3%Z in let T := q 4%Z in
  let X := rgX th (rgDenom th (fun n => q (5 + n)%Z)) Y in
  let MWmix := rgMW th X in let Rmix := Ru th / MWmix in
  let bm := rgBm th X in let am := rgAm th X T in
  let A := rgAstar th am p T in let B := rgBstar th bm p T in
  match cubicRoot (rgz0 A B) (rgz1 A B) (rgz2 A B) with
  | None => None
  | Some Z =>
    let t := rgThermo th X Y MWmix am bm A B Z T in
    let rho := p / (Z * Rmix * T) in
    let gc := rgGammaC A B Z p T rho (rg_cp t) (rg_dZdT t) in
    let tke := halfSq u v w * rho in
    let e := rg_h t - p / rho in
    Some (mkCell (storeQ (ns th) (cQ c) rho u v w (rho * e + tke) Y) q
           (storeqh (ns th) (ch c) (fst gc) (rg_cp t) (rho * rg_h t) (snd gc) (rho * e) (rg_hi t)))
  end.
(** cubic.cpp:458-491: pressure, A*, B* and Z at a temperature *)
Definition rgP (th : thtr) (am bm Vm T : R) : R := Ru th * T / (Vm - bm) - am / (Vm * (Vm + bm) + bm * (Vm - bm)).
Record rgEval := mkEv { ev_p : R; ev_A : R; ev_B : R; ev_Z : R; ev_t : rgOut }.
Definition rgAt (th : thtr) (X Y : Z -> R) (MWmix Vm T : R) : option rgEval :=
  let bm := rgBm th X in let am := rgAm th X T in
  let p := rgP th am bm Vm T in
  let A := rgAstar th am p T in let B := rgBstar th bm p T in
  match cubicRoot (rgz0 A B) (rgz1 A B) (rgz2 A B) with
  | None => None
  | Some Z => Some (mkEv p A B Z (rgThermo th X Y MWmix am bm A B Z T))
  end.
(** cubic.cpp:604-605 *)
Definition rgStep (th : thtr) (X Y : Z -> R) (MWmix Vm e T : R) : option (R * R) :=
  match rgAt th X Y MWmix Vm T with
  | None => None
  | Some v => let Rmix := Ru th / MWmix in
      let error := e - (rg_h (ev_t v) - ev_Z v * Rmix * T) in
      Some (error, T - error / (- rg_cp (ev_t v) + Rmix * (ev_Z v * rg_dZdT (ev_t v))))
  end.
(** cubic.cpp:357-653.  The stored p is the one of the last evaluation. *)
Definition cubicCons (th : thtr) (c : cell) : option cell :=
  let Q := consQ (ns th) (cQ c) in let Y := consY (ns th) (cQ c) in
  let rho := Q 0%Z in let rhou := Q 1%Z in let rhov := Q 2%Z in let rhow := Q 3%Z in let rhoE := Q 4%Z in
  let tke := halfSq rhou rhov rhow / rho in
  let e := (rhoE - tke) / rho in
  let X := rgX th (rgDenom th (rawConsY (ns th) (cQ c))) Y in
  let MWmix := rgMW th X in
  let Vm := MWmix / rho in
  match newtonRun (rgStep th X Y MWmix Vm e) (cq c 4%Z) with
  | None => None
  | Some (T, Tl, _) =>
    match rgAt th X Y MWmix Vm Tl with
    | None => None
    | Some v =>
      let gc := rgGammaC (ev_A v) (ev_B v) (ev_Z v) (ev_p v) T rho (rg_cp (ev_t v)) (rg_dZdT (ev_t v)) in
      Some (mkCell Q (storeq (ns th) (cq c) (ev_p v) (rhou / rho) (rhov / rho) (rhow / rho) T Y)
             (storeqh (ns th) (ch c) (fst gc) (rg_cp (ev_t v)) (rho * rg_h (ev_t v)) (snd gc) (rho * e) (rg_hi (ev_t v))))
    end
  end.
