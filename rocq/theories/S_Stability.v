(** Specification for C159: the variable time step together with the first-order upwind schemes. *)
From Coq Require Import Reals ZArith List Bool.
From Verif Require Import M_Topology M_Halo M_Grid M_Metrics S_Metrics M_Flux M_FluxKernels S_FluxKernels S_Upwind M_Control S_Control.
Import ListNotations.
Open Scope R_scope.

(** a block of the run: sizes, ghost layers, nodes and the state of every cell *)
Record runBlock := mkRB { rb_d : dims; rb_ng : Z; rb_X : nodes; rb_c : Z -> Z -> Z -> cell }.
(** what cfl.cpp:35-66 reads of it: the face centres and normals metrics.py computed from the nodes, q and the sound speed *)
Definition readsOf (b : runBlock) : cblock :=
  mkCB (rb_d b) (rb_ng b) (fun i j k l => cq (rb_c b i j k) l) (fun i j k l => ch (rb_c b i j k) l)
    (iFaceCentre (rb_X b)) (jFaceCentre (rb_X b)) (kFaceCentre (rb_X b))
    (fun i j k => faceNormal (iArea (rb_X b) i j k)) (fun i j k => faceNormal (jArea (rb_X b) i j k)) (fun i j k => faceNormal (kArea (rb_X b) i j k)).
(** the blocks of each rank, with the order in which the reduction over the cells is carried out *)
Definition run := list (list (runBlock * rtree)).
Definition reads (rs : run) : list (list (cblock * rtree)) := map (map (fun bt => (readsOf (fst bt), snd bt))) rs.
Definition inRun (b : runBlock) (rs : run) : Prop := exists mb t, In mb rs /\ In (b, t) mb.
(** a rectangular grid: the nodes lie on planes x = const, y = const, z = const, spaced in any way; no face is smaller than 1e-16 *)
Definition rectangular (b : runBlock) : Prop :=
  let d := rb_d b in let ng := rb_ng b in
  exists x y z : Z -> R,
    (forall i j k, (ng <= i < ng + ni d /\ ng <= j < ng + nj d /\ ng <= k < ng + nk d)%Z -> rb_X b i j k = (x i, y j, z k)) /\
    (forall i j k, interior d ng i j k -> x i < x (i + 1)%Z /\ y j < y (j + 1)%Z /\ z k < z (k + 1)%Z /\
       tiny <= (y (j + 1)%Z - y j) * (z (k + 1)%Z - z k) /\ tiny <= (z (k + 1)%Z - z k) * (x (i + 1)%Z - x i) /\ tiny <= (x (i + 1)%Z - x i) * (y (j + 1)%Z - y j)).
(** every block is rectangular and at least two cells thick in each direction, every cell holds a gas, and every reduction visits exactly the cells of its block *)
Definition soundRun (rs : run) : Prop :=
  (forall mb, In mb (reads rs) -> scheduled mb) /\
  forall b, inRun b rs -> rectangular b /\ (forall a, active (readsOf b) a) /\
    (forall i j k, interior (rb_d b) (rb_ng b) i j k -> gasState (rb_c b i j k)).
(** the state at p next to the cell (i,j,k) of b is that of some cell of the run, at most r times as wide: a cell of b itself, or across a block or periodic boundary the cell the halo was filled from *)
Definition fromRun (r : R) (rs : run) (b : runBlock) (i j k : Z) (p : Z * Z * Z) : Prop :=
  exists b' i' j' k', inRun b' rs /\ interior (rb_d b') (rb_ng b') i' j' k' /\ cellAt (rb_c b) p = rb_c b' i' j' k' /\
    forall a, width (readsOf b') a i' j' k' <= r * width (readsOf b) a i j k.
