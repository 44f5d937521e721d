(** Specification vocabulary for the pseudo-time step and the reference velocity. *)
From Coq Require Import Reals ZArith.
From Verif Require Import M_Topology M_Halo M_Grid M_Metrics S_Metrics M_Flux M_Control S_Control M_Pseudo.
Open Scope R_scope.
(** The same block in other units: lengths are measured in a unit 1/L as long, times in one 1/T as long, so that their numbers grow by L and T.
    Normals are pure numbers; velocities and the sound speed are lengths per time. *)
Definition rescaled (L T : R) (b b' : cblock) : Prop :=
  cb_d b' = cb_d b /\ cb_ng b' = cb_ng b /\
  (forall i j k l, (1 <= l <= 3)%Z -> cb_q b' i j k l = L / T * cb_q b i j k l) /\ (forall i j k, cb_qh b' i j k 3%Z = L / T * cb_qh b i j k 3%Z) /\
  (forall a i j k, centreOf b' a i j k = vscale L (centreOf b a i j k)) /\ (forall a i j k, normalOf b' a i j k = normalOf b a i j k).
Definition scaleExt (s : R) (x : ext) : ext := match x with Finite y => Finite (s * y) | Infinity => Infinity end.
(** the magnitude of the velocity *)
Definition speed (b : cblock) (i j k : Z) : R := norm (cellVel b i j k).
(** x, but not below lo nor above hi *)
Definition clamp (lo hi x : R) : R := Rmax lo (Rmin x hi).
