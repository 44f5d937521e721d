(** Model of the run loop: runPeregrine.py, simulate() from line 46 on.  Definitions only.
    The state of the computation (every array of every block, on all ranks) is a type of which nothing is assumed; what a time step does to it, the step size and the number of
    blocks with a non-finite value are parameters.  Simplifications: a step does not raise; elapsed times and the text printed are left out; the collective calls give
    every rank the same result (that of getDtMaxCFL and checkForNan, see M_Control). *)
From Coq Require Import Reals ZArith NArith List Bool String Ascii.
From Verif Require Import M_Procs M_Io.
Import ListNotations.
Open Scope Z_scope.

Section Run.
Variable St : Type.
(** mpiUtils.getDtMaxCFL (mpiUtils.py:49-61): from the dt in the configuration and the state *)
Variable dtOf : R -> St -> R.
(** mb.step(dt) without the counters *)
Variable step : R -> St -> St.
(** mpiUtils.checkForNan (mpiUtils.py:64-88) *)
Variable nans : St -> Z.

(** the configuration entries read (runPeregrine.py:47-51, 77, 81); checkNan is False (0), True (1) or a number *)
Record rcfg := mkRC { niter : Z; niterRestart : Z; niterArchive : Z; niterPrint : Z; checkNan : Z; isDual : bool; animateRestart : bool; extraVars : list string }.
(** what the run does that can be seen from outside: one entry per print, step, file, check and call of the coprocessor, with the iteration number, time and state at that moment *)
Inductive event :=
| EPrint (n : Z) (tme dt : R)
| EStep (n : Z) (tme dt : R) (s : St)
| ERestart (animate single : bool) (n : Z) (tme : R) (s : St)
| EQnm1 (animate : bool) (n : Z) (s : St)
| EArchive (n : Z) (tme : R) (s : St)
| EExtra (var : string) (n : Z) (tme : R) (s : St)
| ECheck (n : Z) (s : St)
| ECoproc (n : Z) (tme : R) (s : St)
| EAbort
| EFinalize.
(** the multi-block object: state, counters, config["timeIntegration"]["dt"], the two fields of restartMetaData that change; and the events so far, latest first *)
Record mb := mkMb { st : St; nrt : Z; tme : R; cfgDt : R; animate : bool; single : bool; log : list event }.
Definition emit (e : event) (m : mb) : mb := mkMb (st m) (nrt m) (tme m) (cfgDt m) (animate m) (single m) (e :: log m).
Inductive outcome := Finished (m : mb) | ZeroDivision (m : mb).

(** lines 53-66: choose the step size, print on rank 0, step (the integrators add one to nrt and dt to tme); the modulo is evaluated on every rank *)
Definition advance (c : rcfg) (rank : Z) (m : mb) : option mb :=
  let dt := dtOf (cfgDt m) (st m) in
  let m1 := mkMb (st m) (nrt m) (tme m) dt (animate m) (single m) (log m) in
  if niterPrint c =? 0 then None
  else let m2 := if (nrt m1 mod niterPrint c =? 0) && (rank =? 0) then emit (EPrint (nrt m1) (tme m1) dt) m1 else m1 in
       let s := step dt (st m2) in let n := nrt m2 + 1 in let t := (tme m2 + dt)%R in
       Some (mkMb s n t (cfgDt m2) (animate m2) (single m2) (EStep n t dt s :: log m2)).
(** lines 69-82 *)
Definition restart (c : rcfg) (m : mb) : option mb :=
  if niterRestart c =? 0 then None
  else Some (if nrt m mod niterRestart c =? 0
             then let m1 := emit (ERestart (animate m) (single m) (nrt m) (tme m) (st m)) m in
                  if isDual c then emit (EQnm1 (animateRestart c) (nrt m) (st m)) m1 else m1
             else m).
(** lines 84-97 *)
Definition archive (c : rcfg) (m : mb) : option mb :=
  if niterArchive c =? 0 then None
  else Some (if nrt m mod niterArchive c =? 0
             then fold_left (fun m v => emit (EExtra v (nrt m) (tme m) (st m)) m) (extraVars c) (emit (EArchive (nrt m) (tme m) (st m)) m)
             else m).
(** lines 100-115; the second component says whether the loop is left *)
Definition nanCheck (c : rcfg) (m : mb) : mb * bool :=
  if checkNan c =? 0 then (m, false)
  else if nrt m mod checkNan c =? 0
       then let m1 := emit (ECheck (nrt m) (st m)) m in
            if nans (st m1) >? 0
            then let m2 := mkMb (st m1) 99999999 (tme m1) (cfgDt m1) true true (log m1) in
                 (emit EAbort (emit (ERestart (animate m2) (single m2) (nrt m2) (tme m2) (st m2)) m2), true)
            else (m1, false)
       else (m, false).
(** lines 52-118 *)
Fixpoint loop (c : rcfg) (rank : Z) (k : nat) (m : mb) : outcome :=
  match k with
  | O => Finished m
  | S k' =>
    match advance c rank m with None => ZeroDivision m | Some m1 =>
    match restart c m1 with None => ZeroDivision m1 | Some m2 =>
    match archive c m2 with None => ZeroDivision m2 | Some m3 =>
    let (m4, stop) := nanCheck c m3 in
    if stop then Finished m4 else loop c rank k' (emit (ECoproc (nrt m4) (tme m4) (st m4)) m4)
    end end end
  end.
(** lines 52-131; rank 0 finally divides by the configured niter *)
Definition simulate (c : rcfg) (rank : Z) (m : mb) : outcome :=
  match loop c rank (Z.to_nat (niter c)) m with
  | ZeroDivision m' => ZeroDivision m'
  | Finished m' => let m'' := emit EFinalize m' in if (rank =? 0) && (niter c =? 0) then ZeroDivision m'' else Finished m''
  end.
(** mb as bootstrapCase leaves it (bootstrapCase.py:105-111, 152-159): the counters come from the restart read, restart files are double precision *)
Definition booted (c : rcfg) (s : St) (n : Z) (t dt : R) : mb := mkMb s n t dt (animateRestart c) false [].

(** the contents of the restart directory after a list of events: a write replaces a file of the same name (parallelWriter.py:177-178, 211-212, writeMetaData.py:150-160) *)
Record snap := mkSnap { sn_state : St; sn_nrt : Z; sn_tme : R; sn_single : bool; sn_block : option N }.
Definition writeSnap (lump : bool) (blocks : list N) (d : list (text * snap)) (e : event) : list (text * snap) :=
  match e with
  | ERestart an sg n t s =>
      if lump then assign d (varFileName true an (Z.to_N n) 0) (mkSnap s n t sg None)
      else fold_left (fun d b => assign d (varFileName false an (Z.to_N n) b) (mkSnap s n t sg (Some b))) blocks d
  | _ => d
  end.
Definition restartDir (lump : bool) (blocks : list N) (log : list event) (d : list (text * snap)) : list (text * snap) :=
  fold_left (writeSnap lump blocks) (rev log) d.
End Run.
