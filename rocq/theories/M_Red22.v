(** The reduced mechanism kernel chem_C2H4_Air_Red22 (src/compute/chemistry/chem_C2H4_Air_Red22.cpp): 22 transported species, ten species in
    quasi-steady state (CH, CH2, CH2s, HCO, CH3O, H2CC, C2H3, C2H5, CH2CHO, nC3H7), 206 reactions.  The tables are in M_Red22_Tables.v; this
    file is what the C++ does with them.  Exact reals; None is a state in which the C++ divides by zero or takes the logarithm of a
    non-positive number (it then computes with inf or NaN; the isfinite guard of lines 3060-3064 is the identity otherwise).
    Line numbers are those of chem_C2H4_Air_Red22.cpp.  Definitions only. *)
From Coq Require Import Reals ZArith List Bool.
From Verif Require Import M_Halo M_Thermo M_Chem.
Import ListNotations.
Open Scope R_scope.

(** RF[n] = exp(a + b * logT + c * Tinv), a constant, or a constant times an earlier RF[m] (chem_C2H4_Air_Red22.cpp:421-1036) *)
Inductive k22 := KExp (a b c : decimal) | KConst (a : decimal) | KMul (a : decimal) (m : nat).
(** nothing; times CTB (chem_C2H4_Air_Red22.cpp:1052-1055); times PCOR (1086-1101), with the constants of RKLOW and of FCENT (absent: no broadening) *)
Inductive mod22 := NoMod | Third (tb : list (nat * decimal))
  | Fall (tb : list (nat * decimal)) (a b c : decimal) (f : option (decimal * decimal * decimal * decimal * decimal)).
(** one reaction.  rReac and rProd number the 31 species of EG; rcF, rcB the 22 species of cs; rxF, rxB the entry of XQ; rNu the updates of dYdt *)
Record reac22 := mkR22 { rK22 : k22; rReac : list nat; rProd : list nat; rPref : Z; rMod : mod22; rcF : list nat; rcB : list nat;
                         rxF : option nat; rxB : option nat; rNu : list (nat * Z) }.
Inductive dir := Fwd | Bwd.
(** the four forms of statement in the elimination (chem_C2H4_Air_Red22.cpp:1913-2056) *)
Inductive stmt22 :=
  | SAdd (i j p : nat)      (* A<i>_<j> = A<i>_<j> + A<i>_<p> * A<p>_<j>; *)
  | SNew (i j p : nat)      (* double A<i>_<j> = A<i>_<p> * A<p>_<j>; *)
  | SDen (i p : nat)        (* DEN = 1.0 - A<i>_<p> * A<p>_<i>; *)
  | SDiv (i j : nat).       (* A<i>_<j> = A<i>_<j> / DEN; *)
Record mech22 := mkM22 { mW : list decimal; mHigh : list (list decimal); mLow : list (list decimal); mReacs : list reac22;
                         mZeroF : list nat; mZeroB : list nat; mRows : list (nat * list (dir * nat) * list (nat * list (dir * nat)));
                         mProg : list stmt22; mBack : list (nat * list nat) }.

(** cs[n] and CTOT (chem_C2H4_Air_Red22.cpp:94-130); p is in dynes per square centimetre (60) *)
Definition sumTo (n : nat) (f : nat -> R) : R := fold_left (fun s i => s + f i) (seq 0 n) 0.
Definition cs22 (m : mech22) (p T : R) (Y : Z -> R) (n : nat) : R :=
  let c i := Y (Z.of_nat i) / decR (nth i (mW m) (D 1 0)) in
  c n * (p / (sumTo 22 c * T * (8314510 / 10 ^ 6 * 10 ^ 7))).
Definition ctot (cs : nat -> R) : R := sumTo 22 cs.
(** EG[n] = exp(SMH) (chem_C2H4_Air_Red22.cpp:136-143, 159-411) *)
Definition eg22 (m : mech22) (T : R) (n : nat) : R :=
  let a k := decR (nth k (nth n (if Rlt_dec 1000 T then mHigh m else mLow m) []) (D 0 0)) in
  exp (a 0%nat + a 1%nat * (1 / T) + a 2%nat * (ln T - 1) + a 3%nat * T + a 4%nat * T ^ 2 + a 5%nat * T ^ 3 + a 6%nat * T ^ 4).
(** prefRuT (chem_C2H4_Air_Red22.cpp:419) *)
Definition pref22 (T : R) : R := 1013250 / (831451 / 10 ^ 5 * 10 ^ 7 * T).
(** the rate constants, in order (chem_C2H4_Air_Red22.cpp:421-1036) *)
Definition kvals (rs : list reac22) (T : R) : list R :=
  fold_left (fun acc r => acc ++ [match rK22 r with
                                  | KExp a b c => exp (decR a + decR b * ln T + decR c * (1 / T))
                                  | KConst a => decR a
                                  | KMul a k => decR a * nth k acc 0 end]) rs [].
(** EQK (chem_C2H4_Air_Red22.cpp:422-1037) *)
Definition eqk22 (r : reac22) (eg : nat -> R) (pref : R) : R :=
  fold_left (fun x i => x / eg i) (rReac r) (fold_left (fun x i => x * eg i) (rProd r) 1) * powerRZ pref (rPref r).
(** CTB = CTOT + ... (chem_C2H4_Air_Red22.cpp:1052) *)
Definition ctb (tb : list (nat * decimal)) (cs : nat -> R) : R := fold_left (fun s ic => s + decR (snd ic) * cs (fst ic)) tb (ctot cs).
(** FCENT (chem_C2H4_Air_Red22.cpp:1092) *)
Definition fcent22 (f : decimal * decimal * decimal * decimal * decimal) (T : R) : R :=
  let '(c1, t1, c2, t2, t3) := f in decR c1 * exp (- T / decR t1) + decR c2 * exp (- T / decR t2) + exp (- decR t3 / T).
(** PCOR (chem_C2H4_Air_Red22.cpp:1086-1099).  log10 of a non-positive number is NaN (of 0: -inf, which gives NaN in FLOG);
    a zero denominator under pow gives FLOG = 0, or NaN if CPRLOG is zero too *)
Definition pcor (f : option (decimal * decimal * decimal * decimal * decimal)) (T PR : R) : option R :=
  match f with
  | None => if Req_EM_T (1 + PR) 0 then None else Some (PR / (1 + PR))
  | Some f =>
      let F := fcent22 f T in
      if Rle_dec F 0 then None else if Rle_dec PR 0 then None else
      let XN := 75/100 - 127/100 * log10 F in
      let CPR := log10 PR - (4/10 + 67/100 * log10 F) in
      let den := XN - 14/100 * CPR in
      if Req_EM_T den 0 then (if Req_EM_T CPR 0 then None else Some (1 * (PR / (1 + PR))))
      else Some (Rpower 10 (log10 F / (1 + (CPR / den) ^ 2)) * (PR / (1 + PR)))
  end.
(** RF[n] and RB[n] before the steady species are known (chem_C2H4_Air_Red22.cpp:423-1038, 1044-1786) *)
Definition rate22 (T : R) (cs eg : nat -> R) (r : reac22) (k : R) : option (R * R) :=
  let b := k / eqk22 r eg (pref22 T) in
  let out x := Some (fold_left (fun s i => s * cs i) (rcF r) (k * x), fold_left (fun s i => s * cs i) (rcB r) (b * x)) in
  match rMod r with
  | NoMod => out 1
  | Third tb => out (ctb tb cs)
  | Fall tb a b c f =>
      match pcor f T (exp (decR a + decR b * ln T + decR c * (1 / T)) * ctb tb cs / k) with None => None | Some x => out x end
  end.
Fixpoint rates22 (T : R) (cs eg : nat -> R) (rs : list reac22) (ks : list R) : option (list (R * R)) :=
  match rs, ks with
  | r :: rs', k :: ks' => match rate22 T cs eg r k, rates22 T cs eg rs' ks' with Some x, Some l => Some (x :: l) | _, _ => None end
  | _, _ => Some []
  end.
(** RF and RB with the directions of lines 1791-1796 set to zero *)
Definition rfOf (m : mech22) (rs : list (R * R)) (n : nat) : R := if existsb (Nat.eqb n) (mZeroF m) then 0 else fst (nth n rs (0, 0)).
Definition rbOf (m : mech22) (rs : list (R * R)) (n : nat) : R := if existsb (Nat.eqb n) (mZeroB m) then 0 else snd (nth n rs (0, 0)).

(** DEN and A<i>_<j> (chem_C2H4_Air_Red22.cpp:1798-1910); an A that is not declared is 0 here and never read by the C++ *)
Definition term22 (RF RB : nat -> R) (t : dir * nat) : R := match fst t with Fwd => RF (snd t) | Bwd => RB (snd t) end.
Definition sum22 (RF RB : nat -> R) (ts : list (dir * nat)) : R := fold_left (fun s t => s + term22 RF RB t) ts 0.
Definition matrix := nat -> nat -> R.
Definition setA (A : matrix) (i j : nat) (v : R) : matrix := fun r c => if (r =? i)%nat && (c =? j)%nat then v else A r c.
Fixpoint initA (RF RB : nat -> R) (rows : list (nat * list (dir * nat) * list (nat * list (dir * nat)))) (A : matrix) : option matrix :=
  match rows with
  | [] => Some A
  | (i, den, cols) :: rest =>
      let d := sum22 RF RB den in
      if Req_EM_T d 0 then None
      else initA RF RB rest (fold_left (fun A jt => setA A i (fst jt) (sum22 RF RB (snd jt) / d)) cols A)
  end.
(** the elimination (chem_C2H4_Air_Red22.cpp:1913-2056) *)
Fixpoint exec22 (prog : list stmt22) (A : matrix) (den : R) : option matrix :=
  match prog with
  | [] => Some A
  | SAdd i j p :: q => exec22 q (setA A i j (A i j + A i p * A p j)) den
  | SNew i j p :: q => exec22 q (setA A i j (A i p * A p j)) den
  | SDen i p :: q => exec22 q A (1 - A i p * A p i)
  | SDiv i j :: q => if Req_EM_T den 0 then None else exec22 q (setA A i j (A i j / den)) den
  end.
(** the back substitution (chem_C2H4_Air_Red22.cpp:2057-2068); X i is XQ[i-1] *)
Definition back22 (back : list (nat * list nat)) (A : matrix) : nat -> R :=
  fold_left (fun X ijs => fun r => if (r =? fst ijs)%nat then fold_left (fun s j => s + A (fst ijs) j * X j) (snd ijs) (A (fst ijs) 0%nat) else X r)
            back (fun _ => 0).
Definition steady22 (m : mech22) (RF RB : nat -> R) : option (nat -> R) :=
  match initA RF RB (mRows m) (fun _ _ => 0) with
  | None => None
  | Some A => match exec22 (mProg m) A 1 with None => None | Some A' => Some (fun k => back22 (mBack m) A' (S k)) end
  end.

(** ROP (chem_C2H4_Air_Red22.cpp:2070-2235, 2240-3034) *)
Definition xfac (x : option nat) (XQ : nat -> R) : R := match x with Some k => XQ k | None => 1 end.
Definition rop22 (m : mech22) (rs : list (R * R)) (XQ : nat -> R) (n : nat) : R :=
  let r := nth n (mReacs m) (mkR22 (KConst (D 0 0)) [] [] 0 NoMod [] [] None None []) in
  rfOf m rs n * xfac (rxF r) XQ - rbOf m rs n * xfac (rxB r) XQ.
(** dYdt[s] in mol/cm^3/s (chem_C2H4_Air_Red22.cpp:2240-3034) *)
Definition molar22 (m : mech22) (rop : nat -> R) (s : nat) : R :=
  fold_left (fun acc n => fold_left (fun acc sc => if (fst sc =? s)%nat then acc + IZR (snd sc) * rop n else acc)
                                    (rNu (nth n (mReacs m) (mkR22 (KConst (D 0 0)) [] [] 0 NoMod [] [] None None []))) acc)
            (seq 0 (length (mReacs m))) 0.
(** everything between the composition and dYdt: the net rates of the reactions (chem_C2H4_Air_Red22.cpp:93-2236) *)
Definition netRates (m : mech22) (p T : R) (Y : Z -> R) : option ((nat -> R) * (nat -> R)) :=
  let cs := cs22 m p T Y in
  match rates22 T cs (eg22 m T) (mReacs m) (kvals (mReacs m) T) with
  | None => None
  | Some rs => match steady22 m (rfOf m rs) (rbOf m rs) with
               | None => None
               | Some XQ => Some (XQ, rop22 m rs XQ) end
  end.
(** dYdt[n] in kg/m^3/s (chem_C2H4_Air_Red22.cpp:3037-3058) *)
Definition mass22 (m : mech22) (th : thtr) (rop : nat -> R) (n : Z) : R :=
  if (n <? 21)%Z then molar22 m rop (Z.to_nat n) * (MW th n * 1000) else 0.
(** one pass of the sub-step loop (chem_C2H4_Air_Red22.cpp:74-3072) *)
Definition substep22 (m : mech22) (th : thtr) (p rho tSub : R) (s : chemState) : option (chemState * (Z -> R)) :=
  let Y := clampY 22 (cY s) in
  match netRates m p (cT s) Y with
  | None => None
  | Some (_, rop) =>
      let dYdt := mass22 m th rop in
      let dTdt := - accum 0 21 (fun n => nasaH th (cT s) n * dYdt n) / (accum 0 22 (fun n => nasaCp th (cT s) n * Y n) * rho) in
      Some (mkCS (fun n => if (n <? 21)%Z then Y n + dYdt n / rho * tSub else Y n) (cT s + dTdt * tSub), dYdt)
  end.
Fixpoint substeps22 (m : mech22) (th : thtr) (p rho tSub : R) (n : nat) (s : chemState * (Z -> R)) : option (chemState * (Z -> R)) :=
  match n with
  | O => Some s
  | S n' => match substep22 m th p rho tSub (fst s) with None => None | Some s' => substeps22 m th p rho tSub n' s' end
  end.
(** one cell (chem_C2H4_Air_Red22.cpp:60-72, 3074-3084): dQ and omega *)
Definition chemCell22 (m : mech22) (th : thtr) (nSub : nat) (dt : R) (q Q dQ : Z -> R) : option ((Z -> R) * (Z -> R)) :=
  match substeps22 m th (q 0%Z * 10) (Q 0%Z) (dt / INR nSub) nSub (mkCS (fun n => if (n <? 21)%Z then q (5 + n)%Z else 0) (q 4%Z), (fun _ => 0)) with
  | None => None
  | Some (s, dYdt) =>
      Some (fun l => if (5 <=? l)%Z && (l <? 26)%Z then dQ l + (cY s (l - 5)%Z * Q 0%Z - Q l) / dt else dQ l,
            fun l => if (l =? 0)%Z then 0 else dYdt (l - 1)%Z / Q 0%Z)
  end.
