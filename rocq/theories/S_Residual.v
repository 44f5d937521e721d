(** Specification for C157: the size of the change of a primitive variable over all cells of a run. *)
From Coq Require Import Reals ZArith List Bool.
From Verif Require Import M_Topology M_Halo M_Grid M_Metrics M_Flux M_Control M_Residual S_Metrics S_Sum S_Control.
Import ListNotations.
Open Scope R_scope.

Definition ranksOf := list (list (rblock * (Z -> rtree))).
(** every interior cell of every block is visited exactly once, in whatever order *)
Definition eachCellOnce (ranks : ranksOf) (l : Z) : Prop :=
  forall mb b t, In mb ranks -> In (b, t) mb -> visitsInterior (rb_d b) (rb_ng b) (leaves (t l)) /\ NoDup (leaves (t l)).
Definition changeOf (b : rblock) (l i j k : Z) : R := rb_q b i j k l - rb_q0 b i j k l.
(** sum of the squared changes over the interior of a block *)
Definition blockSquares (l : Z) (b : rblock) : R :=
  sum3 (rb_ng b, rb_ng b, rb_ng b) (rb_ng b + ni (rb_d b) - 1, rb_ng b + nj (rb_d b) - 1, rb_ng b + nk (rb_d b) - 1)%Z (fun i j k => changeOf b l i j k ^ 2).
(** all blocks of all ranks *)
Definition allBlocks (ranks : ranksOf) : list rblock := map fst (concat ranks).
Definition totalSquares (ranks : ranksOf) (l : Z) : R := fold_right Rplus 0 (map (blockSquares l) (allBlocks ranks)).
