(** Model of the residual report of the dual-time integrator: src/compute/timeIntegration/dualTime.cpp:151-242 (residual) and
    src/peregrinepy/integrators/dualTime.py:21-31, 97-104.  Exact real arithmetic. *)
From Coq Require Import Reals ZArith List Bool.
From Verif Require Import M_Topology M_Halo M_Grid M_Metrics M_Flux M_Control.
Import ListNotations.
Open Scope R_scope.

(** What residual reads of a block: sizes, q and Q0 (the primitives at the start of the sub-iteration) *)
Record rblock := mkRB { rb_d : dims; rb_ng : Z; rb_q : array4; rb_q0 : array4 }.
(** res of entry l in cell (i,j,k) (dualTime.cpp:181, 186, 191, 196, 201, 232) *)
Definition res (b : rblock) (l : Z) (c : Z * Z * Z) : R := let '(i, j, k) := c in Rabs (rb_q b i j k l - rb_q0 b i j k l).
(** parallel_reduce with Kokkos::Max and Kokkos::Sum (171-209, 227-236): any way of splitting the cells over threads, each
    thread starting from the identities of the two reducers *)
Fixpoint reduceRes (b : rblock) (l : Z) (t : rtree) : R * R :=
  match t with
  | RInit => (lowest, 0)
  | RCell t c => let s := reduceRes b l t in (Rmax (res b l c) (fst s), snd s + res b l c ^ 2)
  | RJoin x y => (Rmax (fst (reduceRes b l x)) (fst (reduceRes b l y)), snd (reduceRes b l x) + snd (reduceRes b l y))
  end.
(** 151-242, entry l of the two vectors.  A block comes with the reduction tree of each entry (the code reduces entries 0..4 in
    one loop and every further one in a loop of its own). *)
Definition residual (mb : list (rblock * (Z -> rtree))) (l : Z) : R * R :=
  fold_left (fun s bt => let r := reduceRes (fst bt) l (snd bt l) in (Rmax (fst r) (fst s), snd s + snd r)) mb (0, 0).
(** dualTime.py:99-102: row 0 after Allreduce with MPI.MIN, row 1 after Allreduce with MPI.SUM and sqrt *)
Definition minOver (xs : list R) : R := match xs with [] => 0 | x :: r => fold_left Rmin r x end.
Definition report (ranks : list (list (rblock * (Z -> rtree)))) (l : Z) : R * R :=
  (minOver (map (fun mb => fst (residual mb l)) ranks), sqrt (fold_left Rplus (map (fun mb => snd (residual mb l)) ranks) 0)).
(** printResidual (21-31), run by rank 0: the heading, which mentions species when [withSpecies], and a line of numbers (their
    rounding to four digits is not modelled) *)
Inductive printed := Heading (withSpecies : bool) | Line (number : Z) (values : list R).
Definition printResidual (ne : Z) (resid : Z -> R) (nrt : Z) : list printed :=
  (if (nrt =? 0)%Z then [Heading (5 <? ne)%Z] else []) ++ [Line (nrt + 1) (map resid (zrange 0 ne))].
(** 45, 97-104: what one time step prints.  [sub n] is the state of all ranks at the end of sub-iteration n. *)
Definition stepPrints (ne nrt niterPrint : Z) (sub : Z -> list (list (rblock * (Z -> rtree)))) : list printed :=
  flat_map (fun n => if (nrt mod niterPrint =? 0)%Z then printResidual ne (fun l => snd (report (sub n) l)) n else []) (zrange 0 20).
