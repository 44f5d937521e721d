(** Model of the advective flux kernels src/compute/advFlux/*.cpp.
    Exact real arithmetic.  Every kernel computes the flux of one face from the cells on the index
    line through the face; [st m] is the cell at offset m from the cell on the high side of the face,
    so st 0 is "R" (i,j,k) and st (-1) is "L" (i-iMod,j-jMod,k-kMod).  The three copies of each kernel
    (i, j, k loops, or iMod/jMod/kMod arguments) differ only in the direction of the line; this was
    checked textually.  C++ fmin/fmax/abs are Rmin/Rmax/Rabs, pow(x,2.0) is x*x. *)
From Coq Require Import Reals ZArith List Bool.
From Verif Require Import M_Topology M_Halo M_Grid M_Metrics M_Flux.
Import ListNotations.
Open Scope R_scope.

(** One cell: conserved Q, primitive q, and qh (block_.hpp):
    Q = rho, rho u, rho v, rho w, rho E, rho Y_n;  q = p, u, v, w, T, Y_n;  qh = gamma, cp, rho h, c, rho e, ... *)
Record cell := mkCell { cQ : Z -> R; cq : Z -> R; ch : Z -> R }.
Definition c_rho (c : cell) := cQ c 0%Z.
Definition c_p (c : cell) := cq c 0%Z.
Definition c_u (c : cell) := cq c 1%Z.
Definition c_v (c : cell) := cq c 2%Z.
Definition c_w (c : cell) := cq c 3%Z.
Definition c_E (c : cell) := cQ c 4%Z.
Definition c_c (c : cell) := ch c 3%Z.
Definition c_re (c : cell) := ch c 4%Z.
(** One face: iS, (isx,isy,isz), (inx,iny,inz) *)
Record fgeo := mkGeo { gS : R; gs : vec; gn : vec }.
Definition flux1 := fgeo -> (Z -> cell) -> Z -> R.

(** iF(i,j,k,0..4) and the species loop iF(i,j,k,5+n), n < ne-5 *)
Definition comp (C mx my mz e : R) (sp : Z -> R) (l : Z) : R :=
  if (l =? 0)%Z then C else if (l =? 1)%Z then mx else if (l =? 2)%Z then my else if (l =? 3)%Z then mz
  else if (l =? 4)%Z then e else sp l.

(** The part shared by KEEP.cpp:17-61, KEEPpe.cpp:17-61, KEPaEC.cpp:16-60; [Ij] is the internal-energy
    flux from the mass flux C and the volume flux U. *)
Definition keepLike (Ij : R -> R -> R) (g : fgeo) (L Rc : cell) : Z -> R :=
  let sx := vx (gs g) in let sy := vy (gs g) in let sz := vz (gs g) in
  let uf := 5/10 * (c_u Rc + c_u L) in
  let vf := 5/10 * (c_v Rc + c_v L) in
  let wf := 5/10 * (c_w Rc + c_w L) in
  let U := sx * uf + sy * vf + sz * wf in
  let pf := 5/10 * (c_p Rc + c_p L) in
  let rho := 5/10 * (c_rho Rc + c_rho L) in
  let C := rho * U in
  let Kj := C * (5/10) * (c_u Rc * c_u L + c_v Rc * c_v L + c_w Rc * c_w L) in
  let Pj := 5/10 * (c_p L * (c_u Rc * sx + c_v Rc * sy + c_w Rc * sz) + c_p Rc * (c_u L * sx + c_v L * sy + c_w L * sz)) in
  comp C (C * uf + pf * sx) (C * vf + pf * sy) (C * wf + pf * sz) (Ij C U + Kj + Pj)
       (fun l => 5/10 * (cq Rc l + cq L l) * C).
(** KEEP.cpp:63-66 *)
Definition KEEP : flux1 := fun g st =>
  let L := st (-1)%Z in let Rc := st 0%Z in
  keepLike (fun C _ => C * (5/10) * (c_re Rc / c_rho Rc + c_re L / c_rho L)) g L Rc.
(** KEEPpe.cpp:63-65 *)
Definition KEEPpe : flux1 := fun g st =>
  let L := st (-1)%Z in let Rc := st 0%Z in
  keepLike (fun _ U => 5/10 * (c_re Rc + c_re L) * U) g L Rc.
(** KEPaEC.cpp:63-66 *)
Definition KEPaEC : flux1 := fun g st =>
  let L := st (-1)%Z in let Rc := st 0%Z in
  keepLike (fun C _ => let eR := c_re Rc / c_rho Rc in let eL := c_re L / c_rho L in 2 * (eL * eR) / (eL + eR) * C) g L Rc.

(** centralDifference.cpp:18-69 *)
Definition centralDifference : flux1 := fun g st =>
  let L := st (-1)%Z in let Rc := st 0%Z in
  let sx := vx (gs g) in let sy := vy (gs g) in let sz := vz (gs g) in
  let UfR := c_u Rc * sx + c_v Rc * sy + c_w Rc * sz in
  let UfL := c_u L * sx + c_v L * sy + c_w L * sz in
  let CjR := sx * cQ Rc 1%Z + sy * cQ Rc 2%Z + sz * cQ Rc 3%Z in
  let CjL := sx * cQ L 1%Z + sy * cQ L 2%Z + sz * cQ L 3%Z in
  comp (5/10 * (CjR + CjL))
       (5/10 * (cQ Rc 1%Z * UfR + c_p Rc * sx + cQ L 1%Z * UfL + c_p L * sx))
       (5/10 * (cQ Rc 2%Z * UfR + c_p Rc * sy + cQ L 2%Z * UfL + c_p L * sy))
       (5/10 * (cQ Rc 3%Z * UfR + c_p Rc * sz + cQ L 3%Z * UfL + c_p L * sz))
       (5/10 * ((c_E Rc + c_p Rc) * UfR + (c_E L + c_p L) * UfL))
       (fun l => 5/10 * (cQ Rc l * UfR + cQ L l * UfL)).

(** fourthOrderKEEP.cpp:14-180: order 4, q = 2, aq = {2/3, -1/12};
    2 * sum over is = 1..q of aq[is-1] * sum over js = 0..is-1 of f(js, js-is) *)
Definition aq (is : Z) : R := if (is =? 1)%Z then 2/3 else - (1/12).
Definition keepSum (f : Z -> Z -> R) : R :=
  2 * fold_left (fun acc is => acc + aq is * fold_left (fun t js => t + f js (js - is)%Z) (zrange 0 is) 0) (zrange 1 3) 0.
Definition fourthOrderKEEP : flux1 := fun g st =>
  let sx := vx (gs g) in let sy := vy (gs g) in let sz := vz (gs g) in
  let mean (h : cell -> R) a b := 5/10 * (h (st a) + h (st b)) in
  let uf := keepSum (mean c_u) in let vf := keepSum (mean c_v) in let wf := keepSum (mean c_w) in
  let U := sx * uf + sy * vf + sz * wf in
  let rho := keepSum (mean c_rho) in
  let rhou := keepSum (fun a b => mean c_rho a b * mean c_u a b) in
  let rhov := keepSum (fun a b => mean c_rho a b * mean c_v a b) in
  let rhow := keepSum (fun a b => mean c_rho a b * mean c_w a b) in
  let p := keepSum (mean c_p) in
  let rhoE := keepSum (fun a b => mean c_rho a b *
      (5/10 * (c_re (st a) / c_rho (st a) + c_re (st b) / c_rho (st b)) +
       5/10 * (c_u (st a) * c_u (st b) + c_v (st a) * c_v (st b) + c_w (st a) * c_w (st b)))) in
  let pu := keepSum (fun a b => 5/10 * (c_p (st b) * (c_u (st a) * sx + c_v (st a) * sy + c_w (st a) * sz) +
                                        c_p (st a) * (c_u (st b) * sx + c_v (st b) * sy + c_w (st b) * sz))) in
  comp (rho * U) (rhou * U + p * sx) (rhov * U + p * sy) (rhow * U + p * sz) (rhoE * U + pu)
       (fun l => keepSum (fun a b => mean c_rho a b * (5/10) * (cq (st a) l + cq (st b) l)) * U).

(** A reconstructed face state for the Riemann solvers. *)
Record fstate := mkFS { f_rho : R; f_u : R; f_v : R; f_w : R; f_p : R; f_E : R; f_c : R;
                        f_mx : R; f_my : R; f_mz : R; f_rY : Z -> R; f_Y : Z -> R }.
(** first-order states: b.Q and b.q of the cell *)
Definition ofCell (c : cell) : fstate :=
  mkFS (c_rho c) (c_u c) (c_v c) (c_w c) (c_p c) (c_E c) (c_c c) (cQ c 1%Z) (cQ c 2%Z) (cQ c 3%Z) (cQ c) (cq c).
Definition fn (g : fgeo) (s : fstate) : R := vx (gn g) * f_u s + vy (gn g) * f_v s + vz (gn g) * f_w s.

(** rusanov.cpp:46-86 and muscl2rusanov.cpp:133-177, with the wave speed [lam0] before the factor iS *)
Definition rusanovFlux (lam0 : R) (g : fgeo) (L Rs : fstate) : Z -> R :=
  let S := gS g in
  let sx := vx (gs g) in let sy := vy (gs g) in let sz := vz (gs g) in
  let lam := lam0 * S in
  let UR := fn g Rs * S in let UL := fn g L * S in
  let mom u (s : R) := 5/10 * ((UR * u Rs * f_rho Rs + f_p Rs * s) + (UL * u L * f_rho L + f_p L * s) - lam * (f_rho Rs * u Rs - f_rho L * u L)) in
  comp (5/10 * (UR * f_rho Rs + UL * f_rho L - lam * (f_rho Rs - f_rho L)))
       (mom f_u sx) (mom f_v sy) (mom f_w sz)
       (5/10 * (UR * (f_E Rs + f_p Rs) + UL * (f_E L + f_p L) - lam * (f_E Rs - f_E L)))
       (fun l => 5/10 * (f_rY Rs l * UR + f_rY L l * UL - lam * (f_rY Rs l - f_rY L l))).
(** rusanov.cpp:43-44: |UL| with the sound speed of R and |UR| with that of L *)
Definition rusanovLam (g : fgeo) (L Rs : fstate) : R := Rmax (Rabs (fn g L) + f_c Rs) (Rabs (fn g Rs) + f_c L).
Definition rusanov : flux1 := fun g st =>
  let L := ofCell (st (-1)%Z) in let Rs := ofCell (st 0%Z) in rusanovFlux (rusanovLam g L Rs) g L Rs.

(** ausmPlusUp.cpp:33-116 *)
Definition ausmCore (S sx sy sz UL UR : R) (L Rc : cell) : Z -> R :=
  let a12 := 5/10 * (c_c Rc + c_c L) in
  let ML := UL / a12 in let MR := UR / a12 in
  let MbarSQ := (UR * UR + UL * UL) / (2 * (a12 * a12)) in
  let Mo := sqrt (Rmin 1 (Rmax MbarSQ (1/10))) in
  let fa := Mo * (2 - Mo) in
  let beta := 1/8 in
  let M1Plus := 5/10 * (ML + Rabs ML) in
  let M1Minus := 5/10 * (MR - Rabs MR) in
  let M2Plus := 25/100 * ((ML + 1) * (ML + 1)) in
  let M2Minus := - (25/100) * ((MR - 1) * (MR - 1)) in
  let M4Plus := if Rle_dec 1 (Rabs ML) then M1Plus else M2Plus * (1 - 16 * beta * M2Minus) in
  let M4Minus := if Rle_dec 1 (Rabs MR) then M1Minus else M2Minus * (1 + 16 * beta * M2Plus) in
  let Kp := 25/100 in let sigma := 1 in
  let rho12 := 5/10 * (c_rho Rc + c_rho L) in
  let M12 := M4Plus + M4Minus - Kp / fa * (Rmax (1 - sigma * MbarSQ) 0) * (c_p Rc - c_p L) / (rho12 * (a12 * a12)) in
  let mDot12 := if Rlt_dec 0 M12 then a12 * M12 * c_rho L else a12 * M12 * c_rho Rc in
  let alpha := 3 / 16 * (-4 + 5 * (fa * fa)) in
  let p5Plus := if Rle_dec 1 (Rabs ML) then 1 / ML * M1Plus else M2Plus * ((2 - ML) - 16 * alpha * ML * M2Minus) in
  let p5Minus := if Rle_dec 1 (Rabs MR) then 1 / MR * M1Minus else M2Minus * ((-2 - MR) + 16 * alpha * MR * M2Plus) in
  let Ku := 75/100 in
  let p12 := p5Plus * c_p L + p5Minus * c_p Rc - Ku * p5Plus * p5Minus * (c_rho Rc + c_rho L) * (fa * a12) * (UR - UL) in
  let up := if Rlt_dec 0 mDot12 then L else Rc in
  comp (mDot12 * S)
       (mDot12 * c_u up * S + p12 * sx) (mDot12 * c_v up * S + p12 * sy) (mDot12 * c_w up * S + p12 * sz)
       (mDot12 * (c_E up + c_p up) / c_rho up * S)
       (fun l => mDot12 * cq up l * S).
(* :20-31 and the face data *)
Definition ausmPlusUp : flux1 := fun g st =>
  let L := st (-1)%Z in let Rc := st 0%Z in
  ausmCore (gS g) (vx (gs g)) (vy (gs g)) (vz (gs g))
           (vx (gn g) * c_u L + vy (gn g) * c_v L + vz (gn g) * c_w L)
           (vx (gn g) * c_u Rc + vy (gn g) * c_v Rc + vz (gn g) * c_w Rc) L Rc.

(** hllc.cpp:54-147 and muscl2hllc.cpp:137-259 (pstar is computed but not used) *)
Definition hllcSL (g : fgeo) (L Rs : fstate) : R := fn g L - f_c L.
Definition hllcSR (g : fgeo) (L Rs : fstate) : R := fn g Rs + f_c Rs.
Definition hllcSstar (g : fgeo) (L Rs : fstate) : R :=
  let UL := fn g L in let UR := fn g Rs in let SL := hllcSL g L Rs in let SR := hllcSR g L Rs in
  (f_p Rs - f_p L + f_rho L * UL * (SL - UL) - f_rho Rs * UR * (SR - UR)) / (f_rho L * (SL - UL) - f_rho Rs * (SR - UR)).
(* hllc.cpp:66-74 / 138-146: the flux of one state *)
Definition sideFlux (g : fgeo) (s : fstate) : Z -> R :=
  let S := gS g in let U := fn g s in
  comp (U * f_rho s * S) (U * f_mx s * S + f_p s * vx (gs g)) (U * f_my s * S + f_p s * vy (gs g)) (U * f_mz s * S + f_p s * vz (gs g))
       (U * (f_E s + f_p s) * S) (fun l => U * f_rY s l * S).
(* hllc.cpp:76-105 / 107-136: the star flux on one side with outer wave speed W *)
Definition starFlux (g : fgeo) (W Sstar : R) (s : fstate) : Z -> R :=
  let S := gS g in let U := fn g s in
  let F := sideFlux g s in
  let Ustar := f_rho s * (W - U) / (W - Sstar) in
  comp (F 0%Z + W * (Ustar - f_rho s) * S)
       (F 1%Z + W * (Ustar * Sstar * vx (gn g) - f_mx s) * S)
       (F 2%Z + W * (Ustar * Sstar * vy (gn g) - f_my s) * S)
       (F 3%Z + W * (Ustar * Sstar * vz (gn g) - f_mz s) * S)
       (F 4%Z + W * (Ustar * (f_E s / f_rho s + (Sstar - U) * (Sstar + f_p s / (f_rho s * (W - U)))) - f_E s) * S)
       (fun l => f_rY s l * U * S + W * (Ustar * f_Y s l - f_rY s l) * S).
Definition hllcFlux (old : Z -> R) (g : fgeo) (L Rs : fstate) : Z -> R :=
  let SL := hllcSL g L Rs in let SR := hllcSR g L Rs in let Sstar := hllcSstar g L Rs in
  if Rle_dec 0 SL then sideFlux g L
  else if Rle_dec SL 0 then
         if Rle_dec 0 Sstar then starFlux g SL Sstar L
         else if Rle_dec 0 SR then (if Rle_dec Sstar 0 then starFlux g SR Sstar Rs else if Rle_dec SR 0 then sideFlux g Rs else old)
         else if Rle_dec SR 0 then sideFlux g Rs else old
  else old.
(** when no branch is taken (impossible in exact arithmetic) the old contents stay *)
Definition hllc : flux1 := fun g st => hllcFlux (fun _ => 0) g (ofCell (st (-1)%Z)) (ofCell (st 0%Z)).

(** MUSCL reconstruction, muscl2rusanov.cpp:43-49 and all its repetitions (theta = 2).  [ratio num den] is the limiter of num / den as the machine computes it when den is 0 (a difference of
    equal numbers is +0): num / den is then +inf, -inf or NaN, and fmin and fmax pass over a NaN, so the limiter is 2, 0 and 2. *)
Definition theta : R := 2.
Definition limiter (r : R) : R := Rmax 0 (Rmin (Rmin (theta * r) ((1 + r) / 2)) theta).
Definition ratio (num den : R) : R := if Req_EM_T den 0 then (if Rlt_dec num 0 then 0 else theta) else limiter (num / den).
Definition limR (h : Z -> R) : R := ratio (h 0%Z - h (-1)%Z) (h 1%Z - h 0%Z).
Definition limL (h : Z -> R) : R := ratio (h (-1)%Z - h (-2)%Z) (h 0%Z - h (-1)%Z).
Definition useR (phi : R) (h : Z -> R) : R := h 0%Z - 5/10 * phi * (h 1%Z - h 0%Z).
Definition useL (phi : R) (h : Z -> R) : R := h (-1)%Z + 5/10 * phi * (h 0%Z - h (-1)%Z).
(** density, velocity and internal energy are reconstructed; p and c reuse the limiter of e.  Species:
    muscl2rusanov reuses the density limiter on rho*Y (168-173), muscl2hllc reconstructs Y (156-164). *)
Definition musclState (hllcY : bool) (st : Z -> cell) (right : bool) : fstate :=
  let lim := if right then limR else limL in let use := if right then useR else useL in
  let rec h := use (lim h) h in
  let rho := rec (fun m => c_rho (st m)) in
  let u := rec (fun m => c_u (st m)) in let v := rec (fun m => c_v (st m)) in let w := rec (fun m => c_w (st m)) in
  let eh := fun m => c_re (st m) / c_rho (st m) in
  let e := rec eh in
  let p := use (lim eh) (fun m => c_p (st m)) in
  let c := use (lim eh) (fun m => c_c (st m)) in
  let E := rho * (e + 5/10 * (u * u + v * v + w * w)) in
  let Y := fun l => rec (fun m => cq (st m) l) in
  let rY := fun l => if hllcY then rho * Y l else use (lim (fun m => c_rho (st m))) (fun m => cQ (st m) l) in
  mkFS rho u v w p E c (rho * u) (rho * v) (rho * w) rY Y.
Definition muscl2rusanovLam (g : fgeo) (L Rs : fstate) : R := Rmax (Rabs (fn g L) + f_c L) (Rabs (fn g Rs) + f_c Rs). (* :132 *)
Definition muscl2rusanov : flux1 := fun g st =>
  let L := musclState false st false in let Rs := musclState false st true in rusanovFlux (muscl2rusanovLam g L Rs) g L Rs.
Definition muscl2hllc : flux1 := fun g st => hllcFlux (fun _ => 0) g (musclState true st false) (musclState true st true).

(** scalarDissipation.cpp:13-102.  [phi] is the face switch; the fourth-difference takes its high
    cell from Q(i+1,j,k), whatever the direction (lines 51,61,...), so it is a separate argument. *)
Definition scalarDissipationFlux (phi : R) (g : fgeo) (LL L Rc : cell) (highI : cell) : Z -> R :=
  let kappa2 := 5/10 in let kappa4 := 5/1000 in
  let eps2 := kappa2 * phi in
  let eps4 := Rmax 0 (kappa4 - eps2) in
  let uf := 5/10 * (c_u Rc + c_u L) in let vf := 5/10 * (c_v Rc + c_v L) in let wf := 5/10 * (c_w Rc + c_w L) in
  let U := vx (gn g) * uf + vy (gn g) * vf + vz (gn g) * wf in
  let a := (Rabs U + 5/10 * (c_c Rc + c_c L)) * gS g in
  fun l => a * (eps2 * (cQ Rc l - cQ L l) - eps4 * (cQ highI l - 3 * cQ Rc l + 3 * cQ L l - cQ LL l)).

(** Whole-block kernels.  Face (i,j,k) of iF lies between cells (i-1,j,k) and (i,j,k), etc.  The kernels
    write the faces with indices ng <= . < n+ng-1 (+1 along the direction) and applyFlux reads only
    those, so the model leaves the range out. *)
Definition stI (c : Z -> Z -> Z -> cell) (i j k : Z) : Z -> cell := fun m => c (i + m)%Z j k.
Definition stJ (c : Z -> Z -> Z -> cell) (i j k : Z) : Z -> cell := fun m => c i (j + m)%Z k.
Definition stK (c : Z -> Z -> Z -> cell) (i j k : Z) : Z -> cell := fun m => c i j (k + m)%Z.
Definition geoI (X : nodes) (i j k : Z) : fgeo := mkGeo (faceSize (iArea X i j k)) (iArea X i j k) (faceNormal (iArea X i j k)).
Definition geoJ (X : nodes) (i j k : Z) : fgeo := mkGeo (faceSize (jArea X i j k)) (jArea X i j k) (faceNormal (jArea X i j k)).
Definition geoK (X : nodes) (i j k : Z) : fgeo := mkGeo (faceSize (kArea X i j k)) (kArea X i j k) (faceNormal (kArea X i j k)).
Definition blockFlux (f : flux1) (X : nodes) (c : Z -> Z -> Z -> cell) : fluxes :=
  mkFl (fun i j k => f (geoI X i j k) (stI c i j k))
       (fun i j k => f (geoJ X i j k) (stJ c i j k))
       (fun i j k => f (geoK X i j k) (stK c i j k)).
(** scalarDissipation.cpp:26-30,106-110: phiIndex 0,1,2 *)
Definition scalarDissipation (phi : array4) (X : nodes) (c : Z -> Z -> Z -> cell) : fluxes :=
  mkFl (fun i j k => scalarDissipationFlux (Rmax (phi i j k 0%Z) (phi (i-1)%Z j k 0%Z)) (geoI X i j k)
                       (c (i-2)%Z j k) (c (i-1)%Z j k) (c i j k) (c (i+1)%Z j k))
       (fun i j k => scalarDissipationFlux (Rmax (phi i j k 1%Z) (phi i (j-1)%Z k 1%Z)) (geoJ X i j k)
                       (c i (j-2)%Z k) (c i (j-1)%Z k) (c i j k) (c (i+1)%Z j k))
       (fun i j k => scalarDissipationFlux (Rmax (phi i j k 2%Z) (phi i j (k-1)%Z 2%Z)) (geoK X i j k)
                       (c i j (k-2)%Z) (c i j (k-1)%Z) (c i j k) (c (i+1)%Z j k)).
