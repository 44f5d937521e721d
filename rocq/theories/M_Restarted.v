(** Model of stopping a run and starting it again from a restart file: runPeregrine.py, bootstrapCase.py, readers/readRestart.py, consistify.py.  Definitions only. *)
From Coq Require Import Reals ZArith NArith List Bool String.
From Verif Require Import M_Topology M_Halo M_Grid M_Metrics M_Procs M_Io M_Run M_Flux M_FluxKernels M_Thermo M_Time.
Import ListNotations.
Open Scope Z_scope.

(** a block of the running solver: what M_Io keeps of it (numbers, sizes, q) with the arrays Q and qh (solverBlock.py, initSolverArrays) *)
Record sblk := mkSB { sb_io : ioBlock; sb_Q : array4; sb_h : array4 }.
Definition cellOf (b : sblk) (i j k : Z) : cell := mkCell (sb_Q b i j k) (io_q (sb_io b) i j k) (sb_h b i j k).
Definition withQ (q : array4) (b : ioBlock) : ioBlock := mkIo (io_num b) (io_dims b) (io_solver b) (io_ng b) (io_xyz b) q (io_rho b) (io_species b) (io_nrt b) (io_tme b).
(** an equation of state called with face -1: every cell of the block, halos included *)
Definition everywhere (f : cell -> cell) (b : sblk) : sblk :=
  mkSB (withQ (fun i j k l => cq (f (cellOf b i j k)) l) (sb_io b)) (fun i j k l => cQ (f (cellOf b i j k)) l) (fun i j k l => ch (f (cellOf b i j k)) l).
(** consistify.py:12-50 with given = "cons", as far as it concerns interior cells: the exchange of Q and the boundary conditions write halo cells only (C09, C50) and the rest does not write q, Q or qh.
    Simplification: the halo cells are those the equation of state leaves. *)
Definition consistifyCells (f : cell -> cell) (bs : list sblk) : list sblk := map (everywhere f) bs.
(** bootstrapCase.py:106-112 and 184-188: read the restart, run the primitive branch everywhere, make consistent.  initSolverArrays (125) has made Q and qh zero.
    [prims], [cons]: the two branches of the equation of state. *)
Definition bootBlock (prims : cell -> cell) (lump anim : bool) (nrt : N) (d : disk) (r : ioBlock) : option sblk :=
  option_map (fun r' => everywhere prims (mkSB r' (fun _ _ _ _ => 0%R) (fun _ _ _ _ => 0%R))) (readRestartBlock lump anim nrt d r).
Definition bootstrap (prims cons : cell -> cell) (lump anim : bool) (nrt : N) (d : disk) (rs : list ioBlock) : option (list sblk) :=
  option_map (consistifyCells cons) (mapM (bootBlock prims lump anim nrt d) rs).
(** mb.nrt and mb.tme after readRestart (readRestart.py:92-93): those of the first block *)
Definition bootCounters (bs : list sblk) : option (N * R) := match bs with [] => None | b :: _ => Some (io_nrt (sb_io b), io_tme (sb_io b)) end.
(** the setters of mb.nrt and mb.tme give every block the counters (multiBlock/restart.py:29-46) *)
Definition stamp (n : N) (t : R) (b : ioBlock) : ioBlock := mkIo (io_num b) (io_dims b) (io_solver b) (io_ng b) (io_xyz b) (io_q b) (io_rho b) (io_species b) n t.
(** the restart of iteration n (runPeregrine.py:69-76): every rank writes its blocks, [order] being the order in which their data arrive *)
Definition writeRun (lump anim : bool) (n : N) (t : R) (procs : list (list Z)) (ranks : list (list sblk)) (species : list text) (order : list sblk) (d : disk) : option disk :=
  parallelWriteRestart (fun x => x) lump anim n t (totalNiList procs (map (map (fun b => stamp n t (sb_io b))) ranks)) species (map (fun b => stamp n t (sb_io b)) order) d.

(** ** The time the boundary data are taken at *)
(** the solver object bootstrapCase returns, in the terms of M_Time: multiBlock/solver.py:36 has set _titme to 0.0, readRestart.py:92-93 sets nrt and tme only,
    and bootstrapCase.py:188 runs consistify *)
Definition bootedSolver {X A} (E : env X A) (p : phys X A) (zero : X -> R) (n : Z) (t : R) : solver X A :=
  consistify E (mkSolver p zero zero zero zero zero zero zero zero n t 0%R []).
