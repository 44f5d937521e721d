(** Specification vocabulary for the diffusive fluxes: Newtonian stress, Fourier and corrected Fick fluxes. *)
From Coq Require Import Reals ZArith List Bool.
From Verif Require Import M_Topology M_Grid M_Metrics S_Metrics S_Sum M_FluxKernels S_FluxKernels S_Thermo M_Diff.
Import ListNotations.
Open Scope R_scope.

Definition mean (h : dcell -> R) (L Rc : dcell) : R := (h L + h Rc) / 2.
(** a scheme's face gradient of each variable *)
Definition gradient := Z -> vec.
(** traction on an area vector s of a Newtonian fluid without bulk viscosity:
    mu ( (s.grad) u_i + sum_j s_j d_i u_j - 2/3 (div u) s_i ) *)
Definition traction (mu : R) (G : gradient) (s : vec) : vec :=
  let div := vx (G 1%Z) + vy (G 2%Z) + vz (G 3%Z) in
  let col (c : vec -> R) := c (G 1%Z) * vx s + c (G 2%Z) * vy s + c (G 3%Z) * vz s in
  (mu * (dot3 (G 1%Z) s + col vx - 2/3 * div * vx s),
   mu * (dot3 (G 2%Z) s + col vy - 2/3 * div * vy s),
   mu * (dot3 (G 3%Z) s + col vz - 2/3 * div * vz s)).
(** heat conducted through s *)
Definition fourier (kappa : R) (G : gradient) (s : vec) : R := - kappa * dot3 (G 4%Z) s.

(** [species ns f]: the quantity of every one of the ns species from that of the first ns-1, the last being minus
    the rest (gradients), or one minus the rest (fractions: withLast of S_Thermo) *)
Definition lastNeg (ns : Z) (f : Z -> R) (n : Z) : R := if (n =? ns - 1)%Z then - sumZ 0 (ns - 1) f else f n.
(** Fick flux of species n with the mass-conserving correction velocity; g normal gradients, D diffusivities, Y fractions *)
Definition correction (ns : Z) (D g : Z -> R) : R := sumZ 0 ns (fun m => D m * g m).
Definition fick (ns : Z) (rho : R) (D g Y : Z -> R) (n : Z) : R := - rho * D n * g n + Y n * rho * correction ns D g.

(** the face data entering the species fluxes: mean density, diffusivities, fractions, enthalpies of all ns = ne - 4 species *)
Definition faceD (L Rc : dcell) (n : Z) : R := mean (fun c => dt c (2 + n)%Z) L Rc.
Definition faceH (L Rc : dcell) (n : Z) : R := mean (fun c => dh c (5 + n)%Z) L Rc.
Definition faceY (ns : Z) (L Rc : dcell) : Z -> R := withLast ns (fun n => mean (fun c => dq c (5 + n)%Z) L Rc).
Definition faceGrad (ns : Z) (G : gradient) (s : vec) : Z -> R := lastNeg ns (fun n => dot3 (G (5 + n)%Z) s).
Definition speciesFlux (ns : Z) (G : gradient) (f : dface) (L Rc : dcell) : Z -> R :=
  fick ns (mean dRho L Rc) (faceD L Rc) (faceGrad ns G (fs f)) (faceY ns L Rc).
Definition faceVelocity (L Rc : dcell) : vec := (mean (fun c => dq c 1%Z) L Rc, mean (fun c => dq c 2%Z) L Rc, mean (fun c => dq c 3%Z) L Rc).
Definition momentum (F : Z -> R) : vec := (F 1%Z, F 2%Z, F 3%Z).
(** heat conduction plus species enthalpy carried by the diffusion fluxes *)
Definition heatAndEnthalpy (ns : Z) (G : gradient) (f : dface) (L Rc : dcell) : R :=
  fourier (mean (fun c => dt c 1%Z) L Rc) G (fs f) + sumZ 0 ns (fun n => speciesFlux ns G f L Rc n * faceH L Rc n).

(** swapping the two sides of a face *)
Definition flip (f : dface) : dface := mkDF (opp (fs f)) (opp (fnn f)) (fx f).
(** a linear field sampled in a cell: value at the centre and its gradient *)
Definition samples (c0 : Z -> R) (g : Z -> vec) (c : dcell) (l : Z) : Prop := dq c l = linearField (c0 l) (g l) (dX c) /\ dG c l = g l.

(** A rotation (or reflection) of space: rows a b c, orthonormal both ways. *)
Record frame := mkFrame { r1 : vec; r2 : vec; r3 : vec }.
Definition turn (A : frame) (v : vec) : vec := (dot3 (r1 A) v, dot3 (r2 A) v, dot3 (r3 A) v).
Definition turnBack (A : frame) (v : vec) : vec := vadd (vadd (vscale (vx v) (r1 A)) (vscale (vy v) (r2 A))) (vscale (vz v) (r3 A)).
Definition orthogonal (A : frame) : Prop := forall v, turnBack A (turn A v) = v /\ turn A (turnBack A v) = v.
(** the same cell and face described in the turned frame: positions and velocities turn, scalars stay; the velocity
    gradient is a second-order tensor *)
Definition turnVel (A : frame) (q : Z -> R) (l : Z) : R :=
  let v := turn A (q 1%Z, q 2%Z, q 3%Z) in
  if (l =? 1)%Z then vx v else if (l =? 2)%Z then vy v else if (l =? 3)%Z then vz v else q l.
Definition turnGrad (A : frame) (G : Z -> vec) (l : Z) : vec :=
  let row (r : vec) := turn A (vadd (vadd (vscale (vx r) (G 1%Z)) (vscale (vy r) (G 2%Z))) (vscale (vz r) (G 3%Z))) in
  if (l =? 1)%Z then row (r1 A) else if (l =? 2)%Z then row (r2 A) else if (l =? 3)%Z then row (r3 A) else turn A (G l).
Definition turnCell (A : frame) (c : dcell) : dcell := mkD (turn A (dX c)) (dRho c) (turnVel A (dq c)) (turnGrad A (dG c)) (dt c) (dh c).
Definition turnFace (A : frame) (f : dface) : dface := mkDF (turn A (fs f)) (turn A (fnn f)) (turn A (fx f)).
(** fluxes computed in the turned frame are the turned fluxes *)
Definition frameInvariant (ne : Z) (F : dface -> dcell -> dcell -> Z -> R) (A : frame) (f : dface) (L Rc : dcell) : Prop :=
  momentum (F (turnFace A f) (turnCell A L) (turnCell A Rc)) = turn A (momentum (F f L Rc)) /\
  forall l, (l = 0 \/ 4 <= l < ne)%Z -> F (turnFace A f) (turnCell A L) (turnCell A Rc) l = F f L Rc l.
(** cells at the ends of a face whose gradients vanish (the odd-even part of a field) *)
Definition flat (c : dcell) : Prop := forall l, dG c l = vzero.
Definition velocityOf (c : dcell) : vec := (dq c 1%Z, dq c 2%Z, dq c 3%Z).
Definition addVelocity (v : vec) (c : dcell) : dcell :=
  mkD (dX c) (dRho c) (fun l => if (l =? 1)%Z then dq c l + vx v else if (l =? 2)%Z then dq c l + vy v else if (l =? 3)%Z then dq c l + vz v else dq c l)
      (dG c) (dt c) (dh c).
(** unit area vectors *)
Definition unitFace (a : vec) : dface := mkDF a a vzero.
Definition ex : vec := (1, 0, 0).
Definition ey : vec := (0, 1, 0).
Definition ez : vec := (0, 0, 1).
(** mean gradient of the cells on the two sides *)
Definition meanGrad (L Rc : dcell) (l : Z) : vec := vscale (1/2) (vadd (dG L l) (dG Rc l)).
