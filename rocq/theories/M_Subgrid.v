(** Model of src/compute/subgrid/smagorinsky.cpp and mixedScaleModel.cpp.  Exact real arithmetic. *)
From Coq Require Import Reals ZArith String List Bool.
From Verif Require Import M_Topology M_Halo M_Grid M_Metrics.
Import ListNotations.
Open Scope R_scope.

(** C's pow(x, y) for x >= 0 and y > 0 (Coq's Rpower is not 0 at x = 0) *)
Definition cpow (x y : R) : R := if Req_EM_T x 0 then 0 else Rpower x y.
(** magSij (smagorinsky.cpp:28-58, mixedScaleModel.cpp:33-63): gu, gv, gw are the gradients of u, v, w *)
Definition strainMag (gu gv gw : vec) : R :=
  let S00 := vx gu in let S11 := vy gv in let S22 := vz gw in
  let S01 := 5/10 * (vy gu + vx gv) in let S02 := 5/10 * (vz gu + vx gw) in let S12 := 5/10 * (vz gv + vy gw) in
  sqrt (2 * (0 + S00 * S00 + S01 * S01 + S02 * S02 + S01 * S01 + S11 * S11 + S12 * S12 + S02 * S02 + S12 * S12 + S22 * S22)).
(** smagorinsky.cpp:24, 60-62 *)
Definition smagorinskyNu (J : R) (gu gv gw : vec) : R :=
  let delta := cpow J (1/3) in (18/100 * delta) ^ 2 * strainMag gu gv gw.
(** mixedScaleModel.cpp:65-82: the filtered value of variable l *)
Definition filtered (q : array4) (i j k l : Z) : R :=
  1 / 3 * (25/100 * q (i-1)%Z j k l + 5/10 * q i j k l + 25/100 * q (i+1)%Z j k l +
           25/100 * q i (j-1)%Z k l + 5/10 * q i j k l + 25/100 * q i (j+1)%Z k l +
           25/100 * q i j (k-1)%Z l + 5/10 * q i j k l + 25/100 * q i j (k+1)%Z l).
(** mixedScaleModel.cpp:24-25, 84-90 with alpha = 1/2 *)
Definition mixedNu (J : R) (gu gv gw : vec) (q : array4) (i j k : Z) : R :=
  let qc2 := 5/10 * ((q i j k 1%Z - filtered q i j k 1%Z) ^ 2 + (q i j k 2%Z - filtered q i j k 2%Z) ^ 2 + (q i j k 3%Z - filtered q i j k 3%Z) ^ 2) in
  let delta := cpow J (1/3) in
  6/100 * cpow (strainMag gu gv gw) (5/10) * cpow qc2 ((1 - 5/10) / 2) * cpow delta (1 + 5/10).
(** MDRange3 range_cc({ng-1,ng-1,ng-1},{ni+ng,nj+ng,nk+ng}) of both models *)
Definition inSgs (d : dims) (ng i j k : Z) : bool :=
  ((ng - 1 <=? i) && (i <? ni d + ng) && (ng - 1 <=? j) && (j <? nj d + ng) && (ng - 1 <=? k) && (k <? nk d + ng))%Z%bool.
(** smagorinsky.cpp:66-76, mixedScaleModel.cpp:92-103: the transport properties mu, kappa, D_0, ... of a cell afterwards *)
Definition addSgs (ne : Z) (nu rho cp : R) (qt : Z -> R) (l : Z) : R :=
  let musgs := nu * rho in
  if (l =? 0)%Z then qt 0%Z + musgs else if (l =? 1)%Z then qt 1%Z + musgs * cp / (4/10)
  else if ((2 <=? l) && (l <=? ne - 5 + 2))%Z%bool then qt l + nu / 1 else qt l.
(** the whole kernels: rho = Q(.,0), cp = qh(.,1), G i j k l the gradient of variable l *)
Definition smagorinsky (d : dims) (ng ne : Z) (J rho cp : Z -> Z -> Z -> R) (G : Z -> Z -> Z -> Z -> vec) (qt : array4) : array4 := fun i j k l =>
  if inSgs d ng i j k then addSgs ne (smagorinskyNu (J i j k) (G i j k 1%Z) (G i j k 2%Z) (G i j k 3%Z)) (rho i j k) (cp i j k) (qt i j k) l else qt i j k l.
Definition mixedScaleModel (d : dims) (ng ne : Z) (J rho cp : Z -> Z -> Z -> R) (G : Z -> Z -> Z -> Z -> vec) (q qt : array4) : array4 := fun i j k l =>
  if inSgs d ng i j k then addSgs ne (mixedNu (J i j k) (G i j k 1%Z) (G i j k 2%Z) (G i j k 3%Z) q i j k) (rho i j k) (cp i j k) (qt i j k) l else qt i j k l.
