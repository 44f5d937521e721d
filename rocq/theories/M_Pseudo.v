(** Model of the local pseudo-time step and of the reference velocity of the dual-time preconditioner: dualTime.cpp:36-105, 257-268, 388-423.  Definitions only.
    Exact real arithmetic with +infinity (the only infinity that occurs: Kokkos::Experimental::infinity, lines 44-50, 91, 261-267).  Widths are taken to be non-zero
    (infinity times zero is a NaN, which fmin ignores). *)
From Coq Require Import Reals ZArith List Bool.
From Verif Require Import M_Topology M_Halo M_Grid M_Metrics M_Flux M_Control M_Dual.
Import ListNotations.
Open Scope R_scope.

Inductive ext := Finite (x : R) | Infinity.
(** fmin *)
Definition fmin (a b : ext) : ext := match a, b with Infinity, y => y | x, Infinity => x | Finite x, Finite y => Finite (Rmin x y) end.
(** iMult, jMult, kMult (dualTime.cpp:40-51, 257-268) times a positive number *)
Definition unlessFlat (n : Z) (x : R) : ext := if (n =? 2)%Z then Infinity else Finite x.
(** dI, dJ, dK (59-67, 409-417) and uI, uJ, uK (74-85) of a cell *)
Definition dualWidth (b : cblock) (i j k : Z) (a : haxis) : R :=
  match a with AI => dist3 (cb_ic b i j k) (cb_ic b (i+1)%Z j k) | AJ => dist3 (cb_jc b i j k) (cb_jc b i (j+1)%Z k) | AK => dist3 (cb_kc b i j k) (cb_kc b i j (k+1)%Z) end.
Definition dualSpeed (b : cblock) (i j k : Z) (a : haxis) : R :=
  let u := cb_q b i j k 1%Z in let v := cb_q b i j k 2%Z in let w := cb_q b i j k 3%Z in
  match a with AI => cflU (cb_in b i j k) (cb_in b (i+1)%Z j k) u v w | AJ => cflU (cb_jn b i j k) (cb_jn b i (j+1)%Z k) u v w | AK => cflU (cb_kn b i j k) (cb_kn b i j (k+1)%Z) u v w end.
(** 91-101; [mu] is qt(..,0), [rho] is Q(..,0) *)
Definition pseudoStep (b : cblock) (mu rho : R) (viscous : bool) (i j k : Z) : ext :=
  let c := cb_qh b i j k 3%Z in
  let pseudoCFL := 1 / 2 in let pseudoVNN := 1 / 10 in
  let conv := fun a n => unlessFlat n (pseudoCFL * dualWidth b i j k a / (dualSpeed b i j k a + c)) in
  let dtau := fmin (fmin (fmin Infinity (conv AI (ni (cb_d b)))) (conv AJ (nj (cb_d b)))) (conv AK (nk (cb_d b))) in
  if viscous then
    let nu := mu / rho in
    let visc := fun a n => unlessFlat n (pseudoVNN * dualWidth b i j k a ^ 2 / nu) in
    fmin (fmin (fmin dtau (visc AI (ni (cb_d b)))) (visc AJ (nj (cb_d b)))) (visc AK (nk (cb_d b)))
  else dtau.
(** localDtau (36-105): interior cells *)
Definition localDtau (b : cblock) (mu rho : Z -> Z -> Z -> R) (viscous : bool) (old : Z -> Z -> Z -> ext) : Z -> Z -> Z -> ext := fun i j k =>
  if inCC (cb_d b) (cb_ng b) 1 i j k 0 then pseudoStep b (mu i j k) (rho i j k) viscous i j k else old i j k.

(** 387-423: the reference velocity of a cell; [refVelocity] (M_Dual) is lines 392-399 and the use of the limit *)
Definition viscousLimit (b : cblock) (mu rho : R) (i j k : Z) : ext :=
  let nu := mu / rho in let lim := fun a n => unlessFlat n (dualWidth b i j k a / nu) in
  fmin (fmin (lim AI (ni (cb_d b))) (lim AJ (nj (cb_d b)))) (lim AK (nk (cb_d b))).
Definition cellRefVelocity (b : cblock) (mu rho : R) (viscous : bool) (i j k : Z) : R :=
  let u := cb_q b i j k 1%Z in let v := cb_q b i j k 2%Z in let w := cb_q b i j k 3%Z in
  refVelocity (Rabs (sqrt (u ^ 2 + v ^ 2 + w ^ 2))) (cb_qh b i j k 3%Z)
    (if viscous then match viscousLimit b mu rho i j k with Finite l => Some l | Infinity => None end else None).
