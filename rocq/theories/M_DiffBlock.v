(** Model of the three calls of computeFlux in src/compute/diffFlux/alphaDampingFlux.cpp:239-247 (and diffusiveFlux.cpp:154-158):
    the diffusive flux arrays of a block from its cells and the stored face metrics. *)
From Coq Require Import Reals ZArith List Bool.
From Verif Require Import M_Topology M_Halo M_Grid M_Metrics M_Flux M_Diff.
Open Scope R_scope.

(** the face arrays handed to computeFlux (alphaDampingFlux.cpp:240-246; metrics.py gives their values) *)
Definition faceI (X : nodes) (i j k : Z) : dface := mkDF (iArea X i j k) (faceNormal (iArea X i j k)) (iFaceCentre X i j k).
Definition faceJ (X : nodes) (i j k : Z) : dface := mkDF (jArea X i j k) (faceNormal (jArea X i j k)) (jFaceCentre X i j k).
Definition faceK (X : nodes) (i j k : Z) : dface := mkDF (kArea X i j k) (faceNormal (kArea X i j k)) (kFaceCentre X i j k).
(** alphaDampingFlux.cpp:25-35, 239-247: the face (i,j,k) of direction i lies between the cells (i-1,j,k) and (i,j,k), and so on *)
Definition blockDiffFlux (kernel : Z -> dface -> dcell -> dcell -> Z -> R) (ne : Z) (X : nodes) (D : Z -> Z -> Z -> dcell) : fluxes :=
  mkFl (fun i j k => kernel ne (faceI X i j k) (D (i - 1)%Z j k) (D i j k))
       (fun i j k => kernel ne (faceJ X i j k) (D i (j - 1)%Z k) (D i j k))
       (fun i j k => kernel ne (faceK X i j k) (D i j (k - 1)%Z) (D i j k)).
