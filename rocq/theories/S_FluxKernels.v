(** Specification vocabulary for the flux kernels: exact Euler flux, consistency, symmetry. *)
From Coq Require Import Reals ZArith List Bool.
From Verif Require Import M_Topology S_Topology M_Halo S_Halo M_Grid M_Metrics S_Metrics M_Flux M_FluxKernels.
Import ListNotations.
Open Scope R_scope.

Definition vel (c : cell) : vec := (c_u c, c_v c, c_w c).
(** conserved, primitive and derived entries of a cell describe one state *)
Definition coherent (c : cell) : Prop :=
  c_rho c <> 0 /\ cQ c 1%Z = c_rho c * c_u c /\ cQ c 2%Z = c_rho c * c_v c /\ cQ c 3%Z = c_rho c * c_w c /\
  c_E c = c_re c + c_rho c / 2 * dot3 (vel c) (vel c) /\ (forall l, (5 <= l)%Z -> cQ c l = c_rho c * cq c l).
(** the exact Euler flux of a state through an area vector *)
Definition eulerFlux (c : cell) (s : vec) (l : Z) : R :=
  let U := dot3 (vel c) s in
  match l with
  | 0%Z => c_rho c * U
  | 1%Z => c_rho c * c_u c * U + c_p c * vx s
  | 2%Z => c_rho c * c_v c * U + c_p c * vy s
  | 3%Z => c_rho c * c_w c * U + c_p c * vz s
  | 4%Z => (c_E c + c_p c) * U
  | _ => cQ c l * U
  end.
(** unit normal times size is the area vector *)
Definition faceVectors (g : fgeo) : Prop := gs g = vscale (gS g) (gn g).
(** all cells of the stencil hold the same state *)
Definition uniform (st : Z -> cell) (c : cell) : Prop := forall m, (-2 <= m <= 1)%Z -> st m = c.

Definition opp (v : vec) : vec := (- vx v, - vy v, - vz v).
Definition reverseFace (g : fgeo) : fgeo := mkGeo (gS g) (opp (gs g)) (opp (gn g)).
(** the same cells counted from the other side: offset m becomes -1-m *)
Definition reverseCells (st : Z -> cell) : Z -> cell := fun m => st (-1 - m)%Z.
Definition antisymmetric (f : flux1) : Prop := forall g st l, (0 <= l)%Z -> f (reverseFace g) (reverseCells st) l = - f g st l.

(** mean pressure times area of a face, and the kinetic-energy flux  (mass flux) * (u_L . u_R) / 2 *)
Definition meanPressureForce (g : fgeo) (L Rc : cell) : vec := vscale ((c_p L + c_p Rc) / 2) (gs g).
Definition massFlux (g : fgeo) (L Rc : cell) : R :=
  (c_rho L + c_rho Rc) / 2 * dot3 (vscale (1/2) (vadd (vel L) (vel Rc))) (gs g).
Definition keFlux (g : fgeo) (L Rc : cell) : R := massFlux g L Rc * dot3 (vel L) (vel Rc) / 2.
Definition faceNormalVelocity (g : fgeo) (c : cell) : R := dot3 (vel c) (gn g).
