(** Model of src/peregrinepy/coproc/catalystCoprocessor.py.  Definitions only.
    VTK is modelled by what it keeps: a structured grid is its dimensions, its points and its named cell arrays in order; an array is the list of its tuples.  AddArray replaces an array of the
    same name in place and appends otherwise; RemoveArray takes the array of that name away, if there is one (vtkFieldData).  numpy_to_vtk keeps the values, also of something that is already
    a VTK array (line 84-89).  Slices [ng:-ng] of an array of extent e run over ng .. e-ng-1 (Simplification: ng > 0; solver blocks always have ghost layers).
    The pipeline script and the Catalyst bridge are outside: [requested] is what RequestDataDescription answers. *)
From Coq Require Import Reals ZArith NArith String List Bool.
From Verif Require Import M_Topology M_Halo M_Grid M_Metrics M_Procs M_Io.
Import ListNotations.
Open Scope Z_scope.

Definition arr4 := Z -> Z -> Z -> Z -> R.
(** a solver block: number, nodes, ghost layers, species, nodes' coordinates, primitive and conserved variables on the host and on the device *)
Record cblock := mkCB { cb_num : nat; cb_d : dims; cb_ng : Z; cb_species : list string; cb_xyz : Z -> array3 R; cb_q : arr4; cb_Q : arr4; cb_dq : arr4; cb_dQ : arr4 }.
Definition vtkArray := list (list R).
Record vtkGrid := mkVG { vg_dims : Z * Z * Z; vg_points : vtkArray; vg_cells : list (string * vtkArray) }.
(** vtkFieldData::AddArray, RemoveArray *)
Fixpoint addTo (l : list (string * vtkArray)) (n : string) (a : vtkArray) : list (string * vtkArray) :=
  match l with [] => [(n, a)] | (m, b) :: r => if String.eqb n m then (n, a) :: r else (m, b) :: addTo r n a end.
Fixpoint removeFrom (l : list (string * vtkArray)) (n : string) : list (string * vtkArray) :=
  match l with [] => [] | (m, b) :: r => if String.eqb n m then r else (m, b) :: removeFrom r n end.
(** addArray, swapArray (catalystCoprocessor.py:95-106) *)
Definition addArray (l : list (string * vtkArray)) (n : string) (a : vtkArray) := addTo l n a.
Definition swapArray (l : list (string * vtkArray)) (n : string) (a : vtkArray) := addTo (removeFrom l n) n a.

(** array[ng:-ng, ng:-ng, ng:-ng].ravel(order="F"), of nodes and of cells *)
Definition flatN (b : cblock) (a : array3 R) : list R := ravelF (ni (cb_d b)) (nj (cb_d b)) (nk (cb_d b)) (cb_ng b) a.
Definition flatC (b : cblock) (a : array3 R) : list R := ravelF (ni (cb_d b) - 1) (nj (cb_d b) - 1) (nk (cb_d b) - 1) (cb_ng b) a.
Definition comp (a : arr4) (l : Z) : array3 R := fun i j k => a i j k l.
(** one column, and np.column_stack of three *)
Definition col1 (l : list R) : vtkArray := map (fun x => [x]) l.
Fixpoint col3 (l m n : list R) : vtkArray := match l, m, n with x :: l, y :: m, z :: n => [x; y; z] :: col3 l m n | _, _, _ => [] end.
(** np.sum(q[..., 5::], axis=-1): the last index runs over 5 .. ne-1 *)
Definition sumSpecies (b : cblock) (q : arr4) : array3 R := fun i j k => fold_right Rplus 0%R (map (fun n => q i j k (5 + Z.of_nat n)) (seq 0 (List.length (cb_species b) - 1))).
(** the species but the last with their numbers: enumerate(blk.speciesNames[0:-1]) *)
Definition named (b : cblock) : list (nat * string) := combine (seq 0 (List.length (cb_species b) - 1)) (removelast (cb_species b)).
Definition velocityOf (b : cblock) (q : arr4) : vtkArray := col3 (flatC b (comp q 1)) (flatC b (comp q 2)) (flatC b (comp q 3)).
Definition lastOf (b : cblock) (q : arr4) : vtkArray := col1 (map (fun s => (1 - s)%R) (flatC b (sumSpecies b q))).

(** __init__, one block (catalystCoprocessor.py:29-91): points from x, y, z, then the arrays from the host's q and Q.  speciesNames[-1] of an empty list would raise: "" stands for it. *)
Definition initGrid (b : cblock) : vtkGrid :=
  let c := addArray [] "rho" (col1 (flatC b (comp (cb_Q b) 0))) in
  let c := addArray c "p" (col1 (flatC b (comp (cb_q b) 0))) in
  let c := addArray c "Velocity" (velocityOf b (cb_q b)) in
  let c := addArray c "T" (col1 (flatC b (comp (cb_q b) 4))) in
  let c := fold_left (fun c s => addArray c (snd s) (col1 (flatC b (comp (cb_q b) (5 + Z.of_nat (fst s)))))) (named b) c in
  let c := addArray c (last (cb_species b) ""%string) (lastOf b (cb_q b)) in
  mkVG (ni (cb_d b), nj (cb_d b), nk (cb_d b)) (col3 (flatN b (cb_xyz b 0)) (flatN b (cb_xyz b 1)) (flatN b (cb_xyz b 2))) c.
(** blk.updateHostView(["q", "Q"]) (solverBlock.py:252-256) *)
Definition updateHost (b : cblock) : cblock := mkCB (cb_num b) (cb_d b) (cb_ng b) (cb_species b) (cb_xyz b) (cb_dq b) (cb_dQ b) (cb_dq b) (cb_dQ b).
(** __call__, one block (catalystCoprocessor.py:115-158); the velocity goes through addArray *)
Definition callGrid (b0 : cblock) (g : vtkGrid) : vtkGrid :=
  let b := updateHost b0 in
  let c := swapArray (vg_cells g) "rho" (col1 (flatC b (comp (cb_Q b) 0))) in
  let c := swapArray c "p" (col1 (flatC b (comp (cb_q b) 0))) in
  let c := addArray c "Velocity" (velocityOf b (cb_q b)) in
  let c := swapArray c "T" (col1 (flatC b (comp (cb_q b) 4))) in
  let c := fold_left (fun c s => swapArray c (snd s) (col1 (flatC b (comp (cb_q b) (5 + Z.of_nat (fst s)))))) (named b) c in
  let c := swapArray c (last (cb_species b) ""%string) (lastOf b (cb_q b)) in
  mkVG (vg_dims g) (vg_points g) c.
(** vtkMultiBlockDataSet: SetNumberOfBlocks, SetBlock(i, None), then SetBlock(nblki, grid) (lines 22-27, 91) *)
Fixpoint setBlock (l : list (option vtkGrid)) (n : nat) (g : vtkGrid) : list (option vtkGrid) :=
  match l, n with [], _ => [] | _ :: r, O => Some g :: r | x :: r, S n => x :: setBlock r n g end.
Definition init (total : nat) (mb : list cblock) : list (option vtkGrid) := fold_left (fun ds b => setBlock ds (cb_num b) (initGrid b)) mb (repeat None total).
(** __call__ (lines 108-161): the data set handed to the pipeline, None when it is not asked for; mbds.GetBlock(nblki) *)
Definition call (requested : bool) (mb : list cblock) (ds : list (option vtkGrid)) : list (option vtkGrid) :=
  if requested then fold_left (fun ds b => match nth_error ds (cb_num b) with Some (Some g) => setBlock ds (cb_num b) (callGrid b g) | _ => ds end) mb ds else ds.
