(** Specification vocabulary for C152: what a VTK structured grid says about a block. *)
From Coq Require Import Reals ZArith String List Permutation.
From Verif Require Import M_Topology M_Halo M_Grid M_Metrics M_Io M_Catalyst.
Import ListNotations.
Local Open Scope string_scope.
Local Open Scope list_scope.
Local Open Scope Z_scope.

(** VTK numbers the cells and the points of a structured grid with the first index running fastest *)
Definition cellId (d : dims) (i j k : Z) : nat := Z.to_nat (i + (ni d - 1) * (j + (nj d - 1) * k)).
Definition pointId (d : dims) (i j k : Z) : nat := Z.to_nat (i + ni d * (j + nj d * k)).
(** the tuple that the array of that name holds for a cell *)
Definition cellValue (g : vtkGrid) (name : string) (id : nat) : option (list R) :=
  match find (fun na => String.eqb name (fst na)) (vg_cells g) with Some (_, a) => nth_error a id | None => None end.
(** the grid has the block's interior nodes as its points *)
Definition showsNodes (b : cblock) (g : vtkGrid) : Prop :=
  vg_dims g = (ni (cb_d b), nj (cb_d b), nk (cb_d b)) /\ List.length (vg_points g) = Z.to_nat (ni (cb_d b) * nj (cb_d b) * nk (cb_d b)) /\
  forall i j k, 0 <= i < ni (cb_d b) -> 0 <= j < nj (cb_d b) -> 0 <= k < nk (cb_d b) ->
    nth_error (vg_points g) (pointId (cb_d b) i j k) = Some (map (fun c => cb_xyz b c (cb_ng b + i) (cb_ng b + j) (cb_ng b + k)) [0; 1; 2]).
(** its cell arrays are density, pressure, velocity, temperature and the species' mass fractions, once each, one tuple per cell, of the fields q and Q in the interior cells; mass fractions
    that are carried are those of q and all of them together sum to one *)
Definition showsFields (b : cblock) (q Q : arr4) (g : vtkGrid) : Prop :=
  Permutation (map fst (vg_cells g)) (["rho"; "p"; "Velocity"; "T"] ++ cb_species b) /\
  (forall n a, In (n, a) (vg_cells g) -> List.length a = Z.to_nat ((ni (cb_d b) - 1) * (nj (cb_d b) - 1) * (nk (cb_d b) - 1))) /\
  forall i j k, 0 <= i < ni (cb_d b) - 1 -> 0 <= j < nj (cb_d b) - 1 -> 0 <= k < nk (cb_d b) - 1 ->
    let id := cellId (cb_d b) i j k in let at_ (a : arr4) l := a (cb_ng b + i) (cb_ng b + j) (cb_ng b + k) l in
    cellValue g "rho" id = Some [at_ Q 0] /\ cellValue g "p" id = Some [at_ q 0] /\ cellValue g "Velocity" id = Some [at_ q 1; at_ q 2; at_ q 3] /\ cellValue g "T" id = Some [at_ q 4] /\
    exists Y, map (fun s => cellValue g s id) (cb_species b) = map (fun y => Some [y]) Y /\ fold_right Rplus 0%R Y = 1%R /\
      forall n, (n + 1 < List.length (cb_species b))%nat -> nth_error Y n = Some (at_ q (5 + Z.of_nat n)).
(** a block as the solver has it *)
Definition solverBlock (b : cblock) : Prop :=
  2 <= ni (cb_d b) /\ 2 <= nj (cb_d b) /\ 2 <= nk (cb_d b) /\ cb_species b <> [] /\ NoDup (["rho"; "p"; "Velocity"; "T"] ++ cb_species b).
(** the same blocks at another time: only the fields differ *)
Definition sameBlocks (mb mb' : list cblock) : Prop := Forall2 (fun b b' => cb_num b' = cb_num b /\ cb_d b' = cb_d b /\ cb_ng b' = cb_ng b /\ cb_species b' = cb_species b /\ cb_xyz b' = cb_xyz b) mb mb'.
(** a run: the data set after the calls, each with its answer and the blocks at its time *)
Definition runOf (total : nat) (mb : list cblock) (calls : list (bool * list cblock)) : list (option vtkGrid) := fold_left (fun ds c => call (fst c) (snd c) ds) calls (init total mb).
