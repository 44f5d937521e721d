(** Chemistry kernels chem_CH4_O2_FFCMY, chem_C2H4_Air_Skeletal and chem_GRI30 (src/compute/chemistry).  The three files have the same
    text outside their tables; the tables are in M_Chem_FFCMY.v, M_Chem_Skeletal.v and M_Chem_GRI30.v, and this file is the interpreter:
    what the C++ of one reaction, one source term, one sub-step and one cell computes.  Exact reals; a C++ NaN is None.  Definitions only.
    Line numbers are those of chem_CH4_O2_FFCMY.cpp; the same text is at chem_C2H4_Air_Skeletal.cpp:70-2556 and chem_GRI30.cpp:87-3991. *)
From Coq Require Import Reals ZArith List Bool.
From Verif Require Import M_Halo M_Thermo.
Import ListNotations.
Open Scope R_scope.

(** a decimal literal of the source: m * 10^e *)
Inductive decimal := D (m e : Z).
Definition decR (d : decimal) : R := let 'D m e := d in IZR m * powerRZ 10 e.
(** the right-hand sides of k_f and k0: exp(log(A) + b * logT - (E * Tinv)), or A times powers of Tinv (chem_CH4_O2_FFCMY.cpp:150-557).
    Where the source omits the b or the E term the table holds 0. *)
Inductive kexpr := Arr (A b E : decimal) | Pow (A : decimal) (n : nat).
Definition kval (k : kexpr) (T : R) : R :=
  match k with
  | Arr A b E => exp (ln (decR A) + decR b * ln T - decR E * (1 / T))
  | Pow A n => decR A * (1 / T) ^ n
  end.
(** what multiplies k_f: nothing; the third-body concentration (chem_CH4_O2_FFCMY.cpp:195-200); the Lindemann or Troe fall-off factor (248-264) *)
Inductive kind :=
  | Plain
  | Third (tb : list (Z * decimal))
  | Lindemann (tb : list (Z * decimal)) (k0 : kexpr)
  | Troe (tb : list (Z * decimal)) (k0 : kexpr) (a T3 T1 T2 : decimal).
(** one reaction: k_f, its modification, dG (species, coefficient), the power of prefRuT in K_c, the concentrations in q_f and q_b with
    their powers, and whether q = q_f + q_b or q = q_f *)
Record reac := mkReac { rK : kexpr; rKind : kind; rDG : list (Z * Z); rKc : Z; rF : list (Z * Z); rB : list (Z * Z); rRev : bool }.
(** a kernel: number of species, reactions q[0], q[1], ..., and for each species the terms of dYdt[n] / MW(n) *)
Record mech := mkMech { m_ns : Z; m_reacs : list reac; m_src : list (list (Z * nat)) }.

(** cTBC = c0 * cs[i0] + ... (chem_CH4_O2_FFCMY.cpp:195-197) *)
Definition tbc (tb : list (Z * decimal)) (cs : Z -> R) : R := fold_left (fun s ic => s + decR (snd ic) * cs (fst ic)) tb 0.
(** ... * cs[i] * pow(cs[j], p) ... (chem_CH4_O2_FFCMY.cpp:153-154) *)
Definition conc (l : list (Z * Z)) (cs : Z -> R) (k : R) : R := fold_left (fun s ip => s * cs (fst ip) ^ Z.to_nat (snd ip)) l k.
(** dG (chem_CH4_O2_FFCMY.cpp:151) *)
Definition gibbs (l : list (Z * Z)) (gbs : Z -> R) : R := fold_left (fun s ic => s + IZR (snd ic) * gbs (fst ic)) l 0.
Definition log10 (x : R) : R := ln x / ln 10.
(** Troe: Fcent, C, N, Pr, A, f1, F_pdr, pmod (chem_CH4_O2_FFCMY.cpp:253-263).  log10 of a non-positive number makes F_pdr NaN
    (log10(0) = -inf gives inf / inf in f1); a zero denominator in f1 gives f1 = inf and F_pdr = 1, or NaN if A is zero too. *)
Definition fcent (a T3 T1 T2 T : R) : R := (1 - a) * exp (- T / T3) + a * exp (- T / T1) + exp (- T2 * (1 / T)).
Definition troe (a T3 T1 T2 T Pr : R) : option R :=
  let F := fcent a T3 T1 T2 T in
  if Rle_dec F 0 then None else if Rle_dec Pr 0 then None else
  let C := - (4/10) - 67/100 * log10 F in
  let N := 75/100 - 127/100 * log10 F in
  let A := log10 Pr + C in
  let den := N - 14/100 * A in
  if Req_EM_T den 0 then (if Req_EM_T A 0 then None else Some (Pr / (1 + Pr) * 1))
  else let f1 := A / den in Some (Pr / (1 + Pr) * Rpower 10 (log10 F / (1 + f1 * f1))).
(** k_f after k_f *= cTBC or k_f *= pmod (chem_CH4_O2_FFCMY.cpp:195-264) *)
Definition forwardK (r : reac) (T : R) (cs : Z -> R) : option R :=
  let kf := kval (rK r) T in
  match rKind r with
  | Plain => Some kf
  | Third tb => Some (kf * tbc tb cs)
  | Lindemann tb k0 => let Pr := tbc tb cs * kval k0 T / kf in Some (kf * (Pr / (1 + Pr)))
  | Troe tb k0 a T3 T1 T2 =>
      match troe (decR a) (decR T3) (decR T1) (decR T2) T (tbc tb cs * kval k0 T / kf) with
      | Some pmod => Some (kf * pmod) | None => None end
  end.
(** K_c = exp(-dG), prefRuT * exp(-dG) or exp(-dG) / prefRuT (chem_CH4_O2_FFCMY.cpp:152) *)
Definition equilK (r : reac) (gbs : Z -> R) (prefRuT : R) : R := exp (- gibbs (rDG r) gbs) * powerRZ prefRuT (rKc r).
(** q[r] (chem_CH4_O2_FFCMY.cpp:153-155) *)
Definition rate (r : reac) (T : R) (cs gbs : Z -> R) (prefRuT : R) : option R :=
  match forwardK r T cs with
  | None => None
  | Some k =>
      let q_f := conc (rF r) cs k in
      let q_b := conc (rB r) cs (- k / equilK r gbs prefRuT) in
      Some (if rRev r then q_f + q_b else q_f)
  end.
(** the array q; None if any of its entries is NaN *)
Fixpoint rates (rs : list reac) (T : R) (cs gbs : Z -> R) (prefRuT : R) : option (list R) :=
  match rs with
  | [] => Some []
  | r :: rs' => match rate r T cs gbs prefRuT, rates rs' T cs gbs prefRuT with
                | Some x, Some l => Some (x :: l) | _, _ => None end
  end.
(** dYdt[n] / MW(n) = c0 * q[i0] + ... (chem_CH4_O2_FFCMY.cpp:564-592) *)
Definition molarSource (m : mech) (q : list R) (n : Z) : R :=
  fold_left (fun s ci => s + IZR (fst ci) * nth (snd ci) q 0) (nth (Z.to_nat n) (m_src m) []) 0.
(** dYdt[n] = MW(n) * (...) *)
Definition massSource (m : mech) (th : thtr) (q : list R) (n : Z) : R := MW th n * molarSource m q n.

(** Y[n] = fmax(fmin(Y[n], 1), 0), the last species and the renormalisation (chem_CH4_O2_FFCMY.cpp:64-77) *)
Definition clampY (nsp : Z) (Y : Z -> R) : Z -> R := composition nsp (fun n => Rmax (Rmin (Y n) 1) 0).
(** cs[n] (chem_CH4_O2_FFCMY.cpp:80-83) *)
Definition concs (th : thtr) (rho : R) (Y : Z -> R) (n : Z) : R := rho * Y n / MW th n.
(** NASA7 polynomials (chem_CH4_O2_FFCMY.cpp:94-124): m = (T <= NASA7(n,0)) ? 8 : 1 *)
Definition nasaM (th : thtr) (T : R) (n : Z) : Z := if Rle_dec T (NASA7 th n 0) then 8%Z else 1%Z.
Definition nasaCp (th : thtr) (T : R) (n : Z) : R := let m := nasaM th T n in
  (NASA7 th n m + NASA7 th n (m + 1)%Z * T + NASA7 th n (m + 2)%Z * T ^ 2 + NASA7 th n (m + 3)%Z * T ^ 3 + NASA7 th n (m + 4)%Z * T ^ 4) * Ru th / MW th n.
Definition nasaH (th : thtr) (T : R) (n : Z) : R := let m := nasaM th T n in
  NASA7 th n m + NASA7 th n (m + 1)%Z * (T / 2) + NASA7 th n (m + 2)%Z * (T ^ 2 / 3) + NASA7 th n (m + 3)%Z * (T ^ 3 / 4) +
  NASA7 th n (m + 4)%Z * (T ^ 4 / 5) + NASA7 th n (m + 5)%Z * (1 / T).
Definition nasaS (th : thtr) (T : R) (n : Z) : R := let m := nasaM th T n in
  NASA7 th n m * ln T + NASA7 th n (m + 1)%Z * T + NASA7 th n (m + 2)%Z * (T ^ 2 / 2) + NASA7 th n (m + 3)%Z * (T ^ 3 / 3) +
  NASA7 th n (m + 4)%Z * (T ^ 4 / 4) + NASA7 th n (m + 6)%Z.
Definition nasaG (th : thtr) (T : R) (n : Z) : R := nasaH th T n - nasaS th T n.

(** the arrays of one sub-step *)
Record chemState := mkCS { cY : Z -> R; cT : R }.
Definition pref (th : thtr) (T : R) : R := 101325 / (Ru th * T).       (* chem_CH4_O2_FFCMY.cpp:148 *)
Definition stepRates (m : mech) (th : thtr) (rho : R) (s : chemState) : option (list R) :=
  rates (m_reacs m) (cT s) (concs th rho (clampY (m_ns m) (cY s))) (nasaG th (cT s)) (pref th (cT s)).
(** dTdt (chem_CH4_O2_FFCMY.cpp:594-599), with cp summed over Y (91, 123) *)
Definition tempSource (m : mech) (th : thtr) (rho T : R) (Y dYdt : Z -> R) : R :=
  - accum 0 (m_ns m) (fun n => nasaH th T n * dYdt n) / (accum 0 (m_ns m) (fun n => nasaCp th T n * Y n) * rho).
(** one pass of the sub-step loop (chem_CH4_O2_FFCMY.cpp:62-602): the new Y, T and the dYdt, dTdt it used *)
Definition substep (m : mech) (th : thtr) (rho tSub : R) (s : chemState) : option (chemState * ((Z -> R) * R)) :=
  match stepRates m th rho s with
  | None => None
  | Some q =>
      let Y := clampY (m_ns m) (cY s) in
      let dYdt := massSource m th q in
      let dTdt := tempSource m th rho (cT s) Y dYdt in
      Some (mkCS (fun n => Y n + dYdt n / rho * tSub) (cT s + dTdt * tSub), (dYdt, dTdt))
  end.
Fixpoint substeps (m : mech) (th : thtr) (rho tSub : R) (n : nat) (s : chemState * ((Z -> R) * R)) : option (chemState * ((Z -> R) * R)) :=
  match n with
  | O => Some s
  | S n' => match substep m th rho tSub (fst s) with None => None | Some s' => substeps m th rho tSub n' s' end
  end.
(** one cell: q (primitives), Q (conserved), dQ (right-hand side) and omega (chem_CH4_O2_FFCMY.cpp:50-60, 604-614).  Y[ns-1] and
    dYdt are uninitialised before the first sub-step and overwritten by it: they start at 0 here.  dYdt is read after the loop
    only when nChemSubSteps > 0. *)
Definition chemCell (m : mech) (th : thtr) (nSub : nat) (dt : R) (q Q dQ : Z -> R) : option ((Z -> R) * (Z -> R)) :=
  match substeps m th (Q 0%Z) (dt / INR nSub) nSub (mkCS (fun n => if (n <? m_ns m - 1)%Z then q (5 + n)%Z else 0) (q 4%Z), (fun _ => 0, 0)) with
  | None => None
  | Some (s, (dYdt, dTdt)) =>
      Some (fun l => if (5 <=? l)%Z && (l <? 5 + (m_ns m - 1))%Z then dQ l + (cY s (l - 5)%Z * Q 0%Z - Q l) / dt else dQ l,
            fun l => if (l =? 0)%Z then dTdt else dYdt (l - 1)%Z / Q 0%Z)
  end.
