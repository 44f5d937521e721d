(** Specification vocabulary for shock switches, CFL numbers and reductions. *)
From Coq Require Import Reals ZArith List Bool Permutation.
From Verif Require Import M_Topology M_Halo M_Grid M_Metrics S_Metrics M_Flux M_Control.
Import ListNotations.
Open Scope R_scope.

(** interior cells of a block with ng ghost layers *)
Definition interior (d : dims) (ng i j k : Z) : Prop :=
  (ng <= i < ng + ni d - 1 /\ ng <= j < ng + nj d - 1 /\ ng <= k < ng + nk d - 1)%Z.
(** a reduction visits every interior cell, and nothing else *)
Definition visitsInterior (d : dims) (ng : Z) (cells : list (Z * Z * Z)) : Prop :=
  forall i j k, In (i, j, k) cells <-> interior d ng i j k.
Definition step (a : haxis) : Z * Z * Z := match a with AI => (1, 0, 0)%Z | AJ => (0, 1, 0)%Z | AK => (0, 0, 1)%Z end.
(** the two opposite faces of a cell in direction a: centres and unit normals *)
Definition centreOf (b : cblock) (a : haxis) := match a with AI => cb_ic b | AJ => cb_jc b | AK => cb_kc b end.
Definition normalOf (b : cblock) (a : haxis) := match a with AI => cb_in b | AJ => cb_jn b | AK => cb_kn b end.
Definition nextOf (a : haxis) {A} (f : Z -> Z -> Z -> A) (i j k : Z) : A :=
  match a with AI => f (i+1)%Z j k | AJ => f i (j+1)%Z k | AK => f i j (k+1)%Z end.
Definition cellVel (b : cblock) (i j k : Z) : vec := (cb_q b i j k 1%Z, cb_q b i j k 2%Z, cb_q b i j k 3%Z).
Definition soundSpeed (b : cblock) (i j k : Z) : R := cb_qh b i j k 3%Z.
(** width of the cell, and the mean normal of its two faces *)
Definition width (b : cblock) (a : haxis) (i j k : Z) : R :=
  norm (vsub (nextOf a (centreOf b a) i j k) (centreOf b a i j k)).
Definition meanN (b : cblock) (a : haxis) (i j k : Z) : vec :=
  vscale (1/2) (vadd (normalOf b a i j k) (nextOf a (normalOf b a) i j k)).
(** the speed the code uses: length of the componentwise product of normal and velocity *)
Definition componentSpeed (b : cblock) (a : haxis) (i j k : Z) : R :=
  let n := meanN b a i j k in let u := cellVel b i j k in norm (vx n * vx u, vy n * vy u, vz n * vz u).
(** the spectral radius per width: |u.n| + c over the distance of the faces *)
Definition spectral (b : cblock) (a : haxis) (i j k : Z) : R :=
  (Rabs (dot3 (cellVel b i j k) (meanN b a i j k)) + soundSpeed b i j k) / width b a i j k.
Definition usedRadius (b : cblock) (a : haxis) (i j k : Z) : R :=
  (componentSpeed b a i j k + soundSpeed b i j k) / width b a i j k.
(** directions in which the block is more than one cell thick *)
Definition active (b : cblock) (a : haxis) : Prop := size (cb_d b) a <> 2%Z.
(** every block of the list is reduced over exactly its interior cells *)
Definition scheduled (mb : list (cblock * rtree)) : Prop :=
  forall b t, In (b, t) mb -> visitsInterior (cb_d b) (cb_ng b) (leaves t).
Definition nscheduled (mb : list (fblock * ntree)) (dom : fblock -> Z -> Z -> Z -> Z -> Prop) : Prop :=
  forall Q t, In (Q, t) mb -> forall i j k l, In (i, j, k, l) (nleaves t) <-> dom Q i j k l.
Definition finite (x : fval) : Prop := exists r, x = Fin r.
