(** Model of src/compute/transport/constantProps.cpp and kineticTheory.cpp, one cell at a time, and of the packing of the
    binary diffusion table in src/peregrinepy/thermoTransport/kineticTheoryPoly.py.  Exact real arithmetic. *)
From Coq Require Import Reals ZArith List Bool.
From Verif Require Import M_Topology M_Halo M_Grid M_Thermo.
Import ListNotations.
Open Scope R_scope.

(** Y: Y(ns-1) = 1.0; Y(n) = q(5+n); Y(ns-1) -= Y(n)  (constantProps.cpp:42-47, kineticTheory.cpp:67-72); y n is q(5+n) *)
Definition trY (nsp : Z) (y : Z -> R) : Z -> R := fun n => if (n =? nsp - 1)%Z then lastY nsp y else y n.
(** mass (constantProps.cpp:52-55, kineticTheory.cpp:78-81) *)
Definition trMass (nsp : Z) (mw Y : Z -> R) : R := accum 0 nsp (fun n => Y n / mw n).
(** constantProps.cpp:56-58 *)
Definition trX (nsp : Z) (mw Y : Z -> R) : Z -> R := fun n => Y n / mw n / trMass nsp mw Y.
(** constantProps.cpp:66-69, kineticTheory.cpp:133-136 *)
Definition wilkePhi (mw mu : Z -> R) (n n2 : Z) : R :=
  (1 + sqrt (mu n / mu n2 * sqrt (mw n2 / mw n))) ^ 2 / (sqrt 8 * sqrt (1 + mw n / mw n2)).
(** constantProps.cpp:62-73, kineticTheory.cpp:129-140 *)
Definition mixMu (nsp : Z) (mw mu X : Z -> R) : R :=
  accum 0 nsp (fun n => mu n * X n / accum 0 nsp (fun n2 => wilkePhi mw mu n n2 * X n2)).
(** constantProps.cpp:76-85, kineticTheory.cpp:143-152 *)
Definition mixKappa (nsp : Z) (kap X : Z -> R) : R :=
  5/10 * (accum 0 nsp (fun n => X n * kap n) + 1 / accum 0 nsp (fun n => X n / kap n)).
(** constantProps.cpp:30-101: mu0 and kappa0 are th.mu0, th.kappa0; rho is Q(.,0), cp is qh(.,1); entry l of qt afterwards *)
Definition constantProps (nsp : Z) (mw mu0 kappa0 : Z -> R) (y : Z -> R) (rho cp : R) (qt : Z -> R) (l : Z) : R :=
  let X := trX nsp mw (trY nsp y) in
  if (l =? 0)%Z then mixMu nsp mw mu0 X else if (l =? 1)%Z then mixKappa nsp kappa0 X
  else if ((2 <=? l) && (l <=? 2 + nsp - 1))%Z%bool then mixKappa nsp kappa0 X / (rho * cp) else qt l.

(** kineticTheory.cpp:110 *)
Definition dijIndex (nsp n n2 : Z) : Z := (nsp * (nsp - 1) / 2 - (nsp - n) * (nsp - n - 1) / 2 + n2)%Z.
(** kineticTheoryPoly.py:267-272: the pairs in the order in which their coefficients are appended *)
Definition dijRows (nsp : Z) : list (Z * Z) := flat_map (fun k => map (fun j => (k, j)) (zrange k nsp)) (zrange 0 nsp).

(** The tables (th.MW, th.muPoly, th.kappaPoly, th.DijPoly) *)
Record ktab := mkKt { kN : Z; kMW : Z -> R; kMuPoly : Z -> Z -> R; kKappaPoly : Z -> Z -> R; kDijPoly : Z -> Z -> R }.
(** The per-thread scratch arrays X, mu_sp, kappa_sp, Dij, D (kineticTheory.cpp:16-21).  In the default build they are
    views, zero when the kernel starts, indexed by the thread's token and never reset between cells.  (Y is always
    overwritten before use.) *)
Record scratch := mkSc { sX : Z -> R; sMu : Z -> R; sKappa : Z -> R; sDij : Z -> Z -> R; sD : Z -> R }.
Definition zeroScratch : scratch := mkSc (fun _ => 0) (fun _ => 0) (fun _ => 0) (fun _ _ => 0) (fun _ => 0).
Definition upd (f : Z -> R) (n : Z) (v : R) : Z -> R := fun m => if (m =? n)%Z then v else f m.
(** kineticTheory.cpp:84-91: X, MWmix and pure after the loop with break *)
Fixpoint moleLoop (mw Y : Z -> R) (mass : R) (l : list Z) (X : Z -> R) (mwmix : R) : (Z -> R) * R * Z :=
  match l with
  | [] => (X, mwmix, (-1)%Z)
  | n :: l' =>
      let x := Y n / mw n / mass in
      let X' := upd X n x in
      let mwmix' := mwmix + x * mw n in
      if Req_EM_T x 1 then (X', mwmix', n) else moleLoop mw Y mass l' X' mwmix'
  end.
(** kineticTheory.cpp:98-102: logT_n[ply] for ply = 0..4 *)
Definition logPow (logT : R) (ply : Z) : R := logT ^ (Z.to_nat ply).
(** kineticTheory.cpp:105-108: an accumulator that starts from the value left in the scratch array *)
Definition polyInto (old : R) (c : Z -> R) (logT : R) : R := fold_left (fun s ply => s + c ply * logPow logT ply) (zrange 0 5) old.
(** kineticTheory.cpp:51-181: the scratch arrays and qt after the cell *)
Definition ktCell (t : ktab) (sc : scratch) (p T : R) (y qt : Z -> R) : scratch * (Z -> R) :=
  let nsp := kN t in
  let Y := trY nsp y in
  let mass := trMass nsp (kMW t) Y in
  let '(X, mwmix, pure) := moleLoop (kMW t) Y mass (zrange 0 nsp) (sX sc) 0 in
  let logT := ln T in let sqrtT := sqrt T in let sqrtsqrtT := sqrt sqrtT in
  let inN n := ((0 <=? n) && (n <? nsp))%Z%bool in
  let mu n := if inN n then (polyInto (sMu sc n) (kMuPoly t n) logT * sqrtsqrtT) ^ 2 else sMu sc n in
  let kap n := if inN n then polyInto (sKappa sc n) (kKappaPoly t n) logT * sqrtT else sKappa sc n in
  let dij n n2 := if (inN n && inN n2)%bool then
      (let a := Z.min n n2 in let b := Z.max n n2 in polyInto (sDij sc a b) (kDijPoly t (dijIndex nsp a b)) logT * (T * sqrtT))
      else sDij sc n n2 in
  let m := mixMu nsp (kMW t) mu X in
  let k := mixKappa nsp kap X in
  let others n f := fold_left (fun s n2 => if (n =? n2)%Z then s else s + f n2) (zrange 0 nsp) 0 in
  let D n := if (pure =? -1)%Z then
      (if inN n then 1 / (others n (fun n2 => X n2 / dij n n2) * p +
                          others n (fun n2 => X n2 * kMW t n2 / dij n n2) * (p * X n / (mwmix - kMW t n * X n))) else sD sc n)
      else sD sc n in
  (mkSc X mu kap dij D,
   fun l => if (l =? 0)%Z then m else if (l =? 1)%Z then k else if ((2 <=? l) && (l <=? 2 + nsp - 1))%Z%bool then D (l - 2)%Z else qt l).

(** What a kernel launch gives each cell handled by one thread, in the order in which the thread takes them
    (kineticTheory.cpp:44-48, 183-186).  A cell is (p, T, (q(5+n)), old qt). *)
Definition ktInput := (R * R * (Z -> R) * (Z -> R))%type.
Definition ktOne (t : ktab) (sc : scratch) (c : ktInput) : scratch * (Z -> R) :=
  let '(p, T, y, qt) := c in ktCell t sc p T y qt.
Fixpoint ktThread (t : ktab) (sc : scratch) (cs : list ktInput) : list (Z -> R) :=
  match cs with [] => [] | c :: cs' => let '(sc', o) := ktOne t sc c in o :: ktThread t sc' cs' end.
(** the default build: scratch views zero-initialised at launch *)
Definition kineticTheory (t : ktab) (cs : list ktInput) : list (Z -> R) := ktThread t zeroScratch cs.
(** the NSCOMPILE build (kineticTheory.cpp:53-60): fresh local arrays per cell, mu_sp, kappa_sp, Dij, D zeroed and X not
    initialised ([junk]) *)
Definition kineticTheoryNS (t : ktab) (junk : nat -> Z -> R) (cs : list ktInput) : list (Z -> R) :=
  map (fun '(i, c) => snd (ktOne t (mkSc (junk i) (fun _ => 0) (fun _ => 0) (fun _ _ => 0) (fun _ => 0)) c)) (combine (seq 0 (List.length cs)) cs).
