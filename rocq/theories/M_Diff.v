(** Model of the diffusive flux kernels src/compute/diffFlux/alphaDampingFlux.cpp and diffusiveFlux.cpp, one face at a
    time.  Exact real arithmetic.  [L] is the cell (i-iMod,j-jMod,k-kMod), [Rc] the cell (i,j,k); the three calls of
    computeFlux (alphaDampingFlux.cpp:239-247, diffusiveFlux.cpp:154-158) differ only in the direction and the face
    arrays passed.  The loops over species are the folds below; the flux array entries are written once per species. *)
From Coq Require Import Reals ZArith List Bool.
From Verif Require Import M_Topology M_Halo M_Grid M_Metrics M_Flux M_FluxKernels.
Import ListNotations.
Open Scope R_scope.

(** What the kernels read of a cell: centre (xc,yc,zc), Q(.,0), q, the gradients (dqdx,dqdy,dqdz)(.,l), qt, qh. *)
Record dcell := mkD { dX : vec; dRho : R; dq : Z -> R; dG : Z -> vec; dt : Z -> R; dh : Z -> R }.
(** What they read of a face: (isx,isy,isz), (inx,iny,inz), (ixc,iyc,izc). *)
Record dface := mkDF { fs : vec; fnn : vec; fx : vec }.

(** 0.5 * (f(i,j,k) + f(i-iMod,...)) *)
Definition avg (a b : R) : R := 5/10 * (a + b).
Definition avgV (a b : vec) : vec := (avg (vx a) (vx b), avg (vy a) (vy b), avg (vz a) (vz b)).

(** diffusiveFlux.cpp:33-53, 83-88, 115-120: the face gradient of variable l *)
Definition plainGrad (f : dface) (L Rc : dcell) (l : Z) : vec := avgV (dG Rc l) (dG L l).
(** alphaDampingFlux.cpp:46-53 *)
Definition magEdotN (f : dface) (L Rc : dcell) : R :=
  let e0 := vx (dX Rc) - vx (dX L) in let e1 := vy (dX Rc) - vy (dX L) in let e2 := vz (dX Rc) - vz (dX L) in
  sqrt ((e0 * vx (fnn f)) ^ 2 + (e1 * vy (fnn f)) ^ 2 + (e2 * vz (fnn f)) ^ 2).
(** alphaDampingFlux.cpp:57-71: wL or wR, the value of variable l extrapolated from a cell to the face centre *)
Definition extrapolate (f : dface) (c : dcell) (l : Z) : R :=
  dq c l + (vx (dG c l) * (vx (fx f) - vx (dX c)) + vy (dG c l) * (vy (fx f) - vy (dX c)) + vz (dG c l) * (vz (fx f) - vz (dX c))).
(** alphaDampingFlux.cpp:55-56, 72-80 (and the copies for v, w, T, Y), alpha = 1.0 *)
Definition dampedGrad (f : dface) (L Rc : dcell) (l : Z) : vec :=
  let m := magEdotN f L Rc in
  let damp0 := 1 / m * vx (fnn f) in let damp1 := 1 / m * vy (fnn f) in let damp2 := 1 / m * vz (fnn f) in
  let wL := extrapolate f L l in let wR := extrapolate f Rc l in
  (avg (vx (dG Rc l)) (vx (dG L l)) + damp0 * (wR - wL),
   avg (vy (dG Rc l)) (vy (dG L l)) + damp1 * (wR - wL),
   avg (vz (dG Rc l)) (vz (dG L l)) + damp2 * (wR - wL)).

(** The rest of both kernels (alphaDampingFlux.cpp:36-43, 116-140, 161-235; diffusiveFlux.cpp:24-31, 55-79, 90-150).
    [gr l] is the face gradient of variable l and [lastClip] what is done to Yns before the last enthalpy flux
    (nothing in alphaDampingFlux; fmax(Yns, 0.0) at diffusiveFlux.cpp:147). *)
Definition diffCore (gr : Z -> vec) (lastClip : R -> R) (ne : Z) (f : dface) (L Rc : dcell) : Z -> R :=
  let sx := vx (fs f) in let sy := vy (fs f) in let sz := vz (fs f) in
  let a (g : dcell -> R) := avg (g Rc) (g L) in
  let mu := a (fun c => dt c 0%Z) in
  let kappa := a (fun c => dt c 1%Z) in
  let lambda := 0 - 2 / 3 * mu in
  let dudx := vx (gr 1%Z) in let dudy := vy (gr 1%Z) in let dudz := vz (gr 1%Z) in
  let dvdx := vx (gr 2%Z) in let dvdy := vy (gr 2%Z) in let dvdz := vz (gr 2%Z) in
  let dwdx := vx (gr 3%Z) in let dwdy := vy (gr 3%Z) in let dwdz := vz (gr 3%Z) in
  let div := dudx + dvdy + dwdz in
  let txx := - 2 * mu * dudx - lambda * div in
  let txy := - mu * (dvdx + dudy) in
  let txz := - mu * (dwdx + dudz) in
  let tyy := - 2 * mu * dvdy - lambda * div in
  let tyz := - mu * (dwdy + dvdz) in
  let tzz := - 2 * mu * dwdz - lambda * div in
  let q := - kappa * (vx (gr 4%Z) * sx + vy (gr 4%Z) * sy + vz (gr 4%Z) * sz) in
  let uf := a (fun c => dq c 1%Z) in let vf := a (fun c => dq c 2%Z) in let wf := a (fun c => dq c 3%Z) in
  let e0 := - (uf * txx + vf * txy + wf * txz) * sx - (uf * txy + vf * tyy + wf * tyz) * sy
            - (uf * txz + vf * tyz + wf * tzz) * sz + q in
  let rho := a dRho in
  let Dk n := a (fun c => dt c (2 + n)%Z) in
  let gradYk n := vx (gr (5 + n)%Z) * sx + vy (gr (5 + n)%Z) * sy + vz (gr (5 + n)%Z) * sz in
  let '(gradYns, Vc0) := fold_left (fun '(g, v) n => (g - gradYk n, v + Dk n * gradYk n)) (zrange 0 (ne - 5)) (0, 0) in
  let Dlast := a (fun c => dt c (2 + ne - 5)%Z) in
  let Vc := Vc0 + Dlast * gradYns in
  let Yk n := a (fun c => dq c (5 + n)%Z) in
  let spf n := - rho * Dk n * gradYk n + Yk n * rho * Vc in
  let '(Yns, e1) := fold_left (fun '(y, e) n => (y - Yk n, e + spf n * a (fun c => dh c (5 + n)%Z))) (zrange 0 (ne - 5)) (1, e0) in
  let e2 := e1 + (- rho * Dlast * gradYns + lastClip Yns * rho * Vc) * a (fun c => dh c ne) in
  comp 0 (txx * sx + txy * sy + txz * sz) (txy * sx + tyy * sy + tyz * sz) (txz * sx + tyz * sy + tzz * sz) e2
       (fun l => spf (l - 5)%Z).

(** alphaDampingFlux.cpp:15-247 *)
Definition alphaDampingFlux (ne : Z) (f : dface) (L Rc : dcell) : Z -> R := diffCore (dampedGrad f L Rc) (fun y => y) ne f L Rc.
(** diffusiveFlux.cpp:9-158 *)
Definition diffusiveFlux (ne : Z) (f : dface) (L Rc : dcell) : Z -> R := diffCore (plainGrad f L Rc) (fun y => Rmax y 0) ne f L Rc.
