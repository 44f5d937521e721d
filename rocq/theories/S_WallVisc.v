(** What viscous walls are: which walls are heat-insulating, what velocity the wall has, halo nodes mirrored about a face. *)
From Coq Require Import Reals ZArith List.
From Verif Require Import M_Topology M_Halo M_Grid M_Metrics M_FluxKernels M_Rhs M_Bc S_Bc.
Import ListNotations.
Open Scope R_scope.
Definition insulating (k : bcKind) : Prop := k = adiabaticNoSlipWall \/ k = adiabaticSlipWall \/ k = adiabaticMovingWall.
Definition sticking (k : bcKind) : Prop := k = adiabaticNoSlipWall \/ k = isoTNoSlipWall \/ k = adiabaticMovingWall \/ k = isoTMovingWall.
Definition slipping (k : bcKind) : Prop := k = adiabaticSlipWall \/ k = isoTSlipWall.
(** the velocity of a sticking wall: zero, or the one given as boundary data *)
Definition wallVelocity (k : bcKind) (fd : faceData) (a b : Z) : vec :=
  match k with adiabaticMovingWall | isoTMovingWall => (f_qBc fd a b 1%Z, f_qBc fd a b 2%Z, f_qBc fd a b 3%Z) | _ => (0, 0, 0) end.
(** the m-th layer of nodes counted from the face into the block: m = 0 the nodes of the face, m = -1 the first halo nodes *)
Definition nodeLayer (d : dims) (ng n m a b : Z) : Z * Z * Z :=
  let s := (if Z.odd n then ng + m else nodesAlong d n + ng - 1 - m)%Z in if (n <=? 2)%Z then (s, a, b) else if (n <=? 4)%Z then (a, s, b) else (a, b, s).
(** the halo nodes behind the (a, b) face are the first interior nodes reflected about the nodes of the face *)
Definition mirroredNodes (d : dims) (ng n : Z) (X : nodes) (a b : Z) : Prop :=
  forall u v, In u [a; a + 1]%Z -> In v [b; b + 1]%Z ->
    cellOf X (nodeLayer d ng n (-1) u v) = vsub (vscale 2 (cellOf X (nodeLayer d ng n 0 u v))) (cellOf X (nodeLayer d ng n 1 u v)).
(** what the diffusive kernels see of the cells: primitives, densities and thermodynamic properties, with transport properties qt *)
Definition seen (blk : field) (qt : Z -> Z -> Z -> Z -> R) : array3 dvals := fun i j k => mkV (cQ (blk i j k) 0%Z) (cq (blk i j k)) (qt i j k) (ch (blk i j k)).
(** the (a, b) of cells in front of the interior of face n *)
Definition innerFace (d : dims) (ng n a b : Z) : Prop :=
  let t := fun lo x N => (lo <= x < N + lo - 1)%Z in
  if (n <=? 2)%Z then t ng a (nj d) /\ t ng b (nk d) else if (n <=? 4)%Z then t ng a (ni d) /\ t ng b (nk d) else t ng a (ni d) /\ t ng b (nj d).
(** the three coordinates of a block with generated halo nodes *)
Definition withHalo (d : dims) (ng : Z) (x : nodes) : nodes := fun i j k =>
  (generateHalo d ng (fun i j k => vx (x i j k)) i j k, generateHalo d ng (fun i j k => vy (x i j k)) i j k, generateHalo d ng (fun i j k => vz (x i j k)) i j k).
