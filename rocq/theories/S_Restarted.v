(** Independent specification for restarted runs (C163). *)
From Coq Require Import Reals ZArith NArith List Bool String.
From Verif Require Import M_Topology M_Halo M_Grid M_Metrics M_Procs M_Io S_Io M_Run M_Flux M_FluxKernels S_Metrics S_FluxKernels S_Sum M_Thermo S_Thermo M_Restarted.
Import ListNotations.
Open Scope Z_scope.

(** two events that differ at most in states that are the same as far as [same] goes *)
Inductive sameEvent {St} (same : St -> St -> Prop) : event St -> event St -> Prop :=
| sePrint n t d : sameEvent same (EPrint St n t d) (EPrint St n t d)
| seStep n t d s s' : same s s' -> sameEvent same (EStep St n t d s) (EStep St n t d s')
| seRestart a p n t s s' : same s s' -> sameEvent same (ERestart St a p n t s) (ERestart St a p n t s')
| seQnm1 a n s s' : same s s' -> sameEvent same (EQnm1 St a n s) (EQnm1 St a n s')
| seArchive n t s s' : same s s' -> sameEvent same (EArchive St n t s) (EArchive St n t s')
| seExtra v n t s s' : same s s' -> sameEvent same (EExtra St v n t s) (EExtra St v n t s')
| seCheck n s s' : same s s' -> sameEvent same (ECheck St n s) (ECheck St n s')
| seCoproc n t s s' : same s s' -> sameEvent same (ECoproc St n t s) (ECoproc St n t s')
| seAbort : sameEvent same (EAbort St) (EAbort St)
| seFinalize : sameEvent same (EFinalize St) (EFinalize St).

(** the cell (i,j,k) of a block, counted from the first interior cell *)
Definition cellAt (b : sblk) (i j k : Z) : cell :=
  let g := io_ng (sb_io b) in mkCell (fun l => sb_Q b (g + i) (g + j) (g + k) l) (fun l => io_q (sb_io b) (g + i) (g + j) (g + k) l) (fun l => sb_h b (g + i) (g + j) (g + k) l).
(** two blocks are the same block and agree in every interior cell: primitives, conserved variables and thermodynamic quantities *)
Definition sameBlock (nsp : Z) (a b : sblk) : Prop :=
  io_num (sb_io a) = io_num (sb_io b) /\ io_dims (sb_io a) = io_dims (sb_io b) /\
  forall i j k, isCell (io_dims (sb_io a)) i j k -> sameq nsp (cellAt a i j k) (cellAt b i j k) /\ sameQ nsp (cellAt a i j k) (cellAt b i j k) /\ sameh nsp (cellAt a i j k) (cellAt b i j k).
Definition sameBlocks (nsp : Z) : list sblk -> list sblk -> Prop := Forall2 (sameBlock nsp).
(** a physical set of conserved variables: positive density, more energy than kinetic energy *)
Definition physicalQ (c : cell) : Prop := (0 < cQ c 0%Z)%R /\ ((cQ c 1%Z ^ 2 + cQ c 2%Z ^ 2 + cQ c 3%Z ^ 2) / (2 * cQ c 0%Z) < cQ c 4%Z)%R.
(** what consistify leaves in a cell: the result of the conserved branch on physical conserved variables (of any composition, even one it has to clip) *)
Definition settled (th : thtr) (c : cell) : Prop := exists c0, physicalQ c0 /\ sameq (ns th) c (cpgCons th c0) /\ sameQ (ns th) c (cpgCons th c0) /\ sameh (ns th) c (cpgCons th c0).
Definition settledBlock (th : thtr) (b : sblk) : Prop := forall i j k, isCell (io_dims (sb_io b)) i j k -> settled th (cellAt b i j k).
(** the blocks of the new run are set up for the blocks of the old one: same numbers, sizes and species; halo widths may differ *)
Definition setUpFor (r w : ioBlock) : Prop := io_num r = io_num w /\ io_dims r = io_dims w /\ io_species r = io_species w /\ io_solver r = true /\ 0 <= io_ng r.
