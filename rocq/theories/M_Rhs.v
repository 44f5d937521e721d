(** Model of src/peregrinepy/consistify.py:12-50 and src/peregrinepy/RHS.py:11-54 over all blocks: which arrays are
    computed from which, and exchanged how.  Blocks are indexed by number; [dim n] are the sizes of block n.  Kernels run
    block by block in the code; since none reads another block's arrays the result is the pointwise definition here. *)
From Coq Require Import Reals ZArith List Bool.
From Verif Require Import M_Topology M_Halo M_Grid M_Metrics M_Flux M_FluxKernels M_Control M_Diff.
Import ListNotations.
Open Scope R_scope.

(** consistify.py:37: mb.switch(blk) for every block, from the pressures (q(.,0)) of cells and halos; halo switches keep
    what they held ([phi0]). *)
Definition switches (s : switch1) (ng : Z) (dm : Z -> dims) (cells : state cell) (phi0 : state (Z -> R)) : state (Z -> R) :=
  fun n => switchKernel s (dm n) ng (fun i j k => cq (cells n i j k)) (phi0 n).

(** the face and cell data the diffusive kernels read: areas, unit normals and centres of the faces and centres of the
    cells come from the grid metrics (metrics.py:13-34), the rest is per cell: Q(.,0), q, qt, qh and the gradients. *)
Record dvals := mkV { vRho : R; vq : Z -> R; vt : Z -> R; vh : Z -> R }.
Definition dcellAt (X : nodes) (v : array3 dvals) (G : array3 (Z -> vec)) (i j k : Z) : dcell :=
  mkD (cellCentre X i j k) (vRho (v i j k)) (vq (v i j k)) (G i j k) (vt (v i j k)) (vh (v i j k)).
Definition dfaceI (X : nodes) (i j k : Z) : dface := mkDF (iArea X i j k) (faceNormal (iArea X i j k)) (iFaceCentre X i j k).
Definition dfaceJ (X : nodes) (i j k : Z) : dface := mkDF (jArea X i j k) (faceNormal (jArea X i j k)) (jFaceCentre X i j k).
Definition dfaceK (X : nodes) (i j k : Z) : dface := mkDF (kArea X i j k) (faceNormal (kArea X i j k)) (kFaceCentre X i j k).
(** RHS.py:44: mb.diffFlux(blk); alphaDampingFlux.cpp:239-247, diffusiveFlux.cpp:154-158: the three sweeps *)
Definition diffBlockFlux (f : dface -> dcell -> dcell -> Z -> R) (X : nodes) (v : array3 dvals) (G : array3 (Z -> vec)) : fluxes :=
  let c := dcellAt X v G in
  mkFl (fun i j k => f (dfaceI X i j k) (c (i-1)%Z j k) (c i j k))
       (fun i j k => f (dfaceJ X i j k) (c i (j-1)%Z k) (c i j k))
       (fun i j k => f (dfaceK X i j k) (c i j (k-1)%Z) (c i j k)).
(** RHS.py:11-45: advective part, then the diffusive fluxes on top (applyDiffFlux is applyFlux, multiBlock/__init__.py:123) *)
Definition flowRHS (sh : shock) (d : dims) (ng ne : Z) (Jv : array3 R) (phi : array4) (F1 : fluxes) (F2 FD : option fluxes) : array4 :=
  let dQ := advectiveRHS sh d ng ne Jv phi F1 F2 in
  match FD with None => dQ | Some F => applyFlux d ng ne Jv F dQ end.
