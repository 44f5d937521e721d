(** Model of src/compute/timeIntegration/dualTime.cpp:244-594 (invertDQ) for one cell: the preconditioned matrix and its in-place
    LU factorisation.  Exact real arithmetic; matrices and vectors are functions of their indices. *)
From Coq Require Import Reals ZArith List Bool.
From Verif Require Import M_Topology M_Halo M_Grid M_Metrics M_Flux M_FluxKernels M_Thermo.
Import ListNotations.
Open Scope R_scope.

Definition mat := Z -> Z -> R. Definition vec := Z -> R.
Definition setv (v : vec) (l : Z) (x : R) : vec := fun i => if (i =? l)%Z then x else v i.
Definition setm (M : mat) (l m : Z) (x : R) : mat := fun i j => if ((i =? l) && (j =? m))%Z%bool then x else M i j.
(** dualTime.cpp:527-534: pivotInd = 0; pivot = 0.0; for m = l .. ne-1: if abs(GdQ(m,l)) > abs(pivot) ... *)
Definition pivotSearch (ne l : Z) (M : mat) : Z * R :=
  fold_left (fun s m => if Rlt_dec (Rabs (snd s)) (Rabs (M m l)) then (m, M m l) else s) (zrange l ne) (0%Z, 0).
(** 536-540 *)
Definition swapRows (ne l k : Z) (M : mat) : mat :=
  fold_left (fun M p => let t := M l p in setm (setm M l p (M k p)) k p t) (zrange 0 ne) M.
(** 542-544 *)
Definition swapPerm (l k : Z) (perm : Z -> Z) : Z -> Z :=
  let t := perm l in let p1 := fun i => if (i =? l)%Z then perm k else perm i in fun i => if (i =? k)%Z then t else p1 i.
(** 546-552 *)
Definition eliminate (ne l : Z) (M : mat) : mat :=
  fold_left (fun M p => let temp := M p l / M l l in
     fold_left (fun M q => setm M p q (M p q - temp * M l q)) (zrange (l + 1) ne) (setm M p l temp)) (zrange (l + 1) ne) M.
Definition luStep (ne : Z) (s : mat * (Z -> Z)) (l : Z) : mat * (Z -> Z) :=
  let k := fst (pivotSearch ne l (fst s)) in (eliminate ne l (swapRows ne l k (fst s)), swapPerm l k (snd s)).
(** 522-553 *)
Definition lu (ne : Z) (M : mat) : mat * (Z -> Z) := fold_left (luStep ne) (zrange 0 ne) (M, fun l => l).
(** 573-577 *)
Definition forward (ne : Z) (G : mat) (z : vec) : vec :=
  fold_left (fun z l => fold_left (fun z q => setv z l (z l - G l q * z q)) (zrange 0 l) z) (zrange 0 ne) z.
(** 586-592 *)
Definition backward (ne : Z) (G : mat) (z x : vec) : vec :=
  fold_left (fun x l => let x1 := setv x l (z l) in
     let x2 := fold_left (fun x q => setv x l (x l - G l q * x q)) (rev (zrange (l + 1) ne)) x1 in
     setv x2 l (x2 l / G l l)) (rev (zrange 0 ne)) x.
(** 515-592: the solution left in dQ (entries 0 .. ne-1) *)
Definition luSolve (ne : Z) (M : mat) (dQ : vec) : vec :=
  let '(G, perm) := lu ne M in
  let temp := fun l => dQ (perm l) in backward ne G (forward ne G temp) temp.

(** 329-366, 388-427: the quantities entering the matrix.  [lim] is the viscous limit of the reference velocity (408-423), None when
    not viscous. *)
Definition refVelocity (U c : R) (lim : option R) : R :=
  let eps := 1 / 100000 in
  let Ur := if Rlt_dec U (eps * c) then eps * c else if Rlt_dec (eps * c) U then (if Rlt_dec U c then U else c) else c in
  match lim with None => Ur | Some l => Rmin Ur l end.
Record dualCell := mkDC { dc_ns : Z; dc_rho : R; dc_u : R; dc_v : R; dc_w : R; dc_T : R; dc_p : R; dc_cp : R; dc_H : R; dc_Y : Z -> R; dc_h : Z -> R; dc_rhoY : Z -> R }.
Definition dualData (th : thtr) (c : cell) : dualCell :=
  let Y := fun n => if (n =? ns th - 1)%Z then lastY (ns th) (fun n => cq c (5 + n)%Z) else cq c (5 + n)%Z in
  let denom := accum 0 (ns th - 1) (fun n => Y n / MW th n) + Y (ns th - 1)%Z / MW th (ns th - 1)%Z in
  let MWmix := accum 0 (ns th) (fun n => MW th n * (Y n / MW th n / denom)) in
  let rho := cQ c 0%Z in let u := cq c 1%Z in let v := cq c 2%Z in let w := cq c 3%Z in
  mkDC (ns th) rho u v w (cq c 4%Z) (cq c 0%Z) (ch c 1%Z) (ch c 2%Z / rho + 5/10 * (u ^ 2 + v ^ 2 + w ^ 2)) Y (ch c)
       (fun n => - rho * (MWmix * (1 / MW th n - 1 / MW th (ns th - 1)%Z))).
(** 452-512: one of the two matrices (mult = 1), with first-column factor Theta *)
Definition gammaMat (d : dualCell) (Theta : R) : mat := fun l m =>
  let rho_T := - dc_rho d / dc_T d in
  let vel := fun l => if (l =? 1)%Z then dc_u d else if (l =? 2)%Z then dc_v d else dc_w d in
  if (m =? 0)%Z then
    if (l =? 0)%Z then Theta else if (l <? 4)%Z then Theta * vel l else if (l =? 4)%Z then Theta * dc_H d + dc_T d * rho_T / dc_rho d else Theta * dc_Y d (l - 5)%Z
  else if (m <? 4)%Z then
    if (l =? m)%Z then dc_rho d else if (l =? 4)%Z then dc_rho d * vel m else 0
  else if (m =? 4)%Z then
    if (l =? 0)%Z then rho_T else if (l <? 4)%Z then rho_T * vel l else if (l =? 4)%Z then rho_T * dc_H d + dc_rho d * dc_cp d else rho_T * dc_Y d (l - 5)%Z
  else
    let rY := dc_rhoY d (m - 5)%Z in
    if (l =? 0)%Z then rY else if (l <? 4)%Z then rY * vel l
    else if (l =? 4)%Z then dc_H d * rY + dc_rho d * (dc_h d m - dc_h d (5 + dc_ns d - 1)%Z)
    else dc_Y d (l - 5)%Z * rY + (if (l =? m)%Z then dc_rho d else 0).
(** 384-385, 426-427, 448-513 *)
Definition GdQ (d : dualCell) (Ur dtau dt : R) : mat := fun l m =>
  let rho_T := - dc_rho d / dc_T d in
  1 * gammaMat d (1 / Ur ^ 2 - rho_T / (dc_rho d * dc_cp d)) l m + 3 / 2 * dtau / dt * gammaMat d (dc_rho d / dc_p d) l m.
(** the whole kernel on one cell *)
Definition invertDQ1 (th : thtr) (c : cell) (lim : option R) (dtau dt : R) (dQ : vec) : vec :=
  let d := dualData th c in
  let U := Rabs (sqrt (dc_u d ^ 2 + dc_v d ^ 2 + dc_w d ^ 2)) in
  luSolve (5 + ns th - 1)%Z (GdQ d (refVelocity U (ch c 3%Z) lim) dtau dt) dQ.
