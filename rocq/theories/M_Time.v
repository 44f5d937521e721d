(** Model of src/peregrinepy/integrators/*.py and src/compute/timeIntegration/*Stages.cpp, dualTime.cpp (without the
    matrix, which is M_Dual), axpby.cpp:18-48, and the counters of multiBlock/restart.py:25-46, solver.py:78-86.
    Exact real arithmetic.  [X] is the type of array positions (block, i, j, k, l); [inner] selects the interior cells
    of the range ({ng,ng,ng,0},{ni+ng-1,nj+ng-1,nk+ng-1,ne}) every stage kernel loops over.
    The physics (RHS, consistify, the stiff ODE solve, the implicit solve) is a parameter: see [env]. *)
From Coq Require Import Reals ZArith List Bool String.
Import ListNotations.
Open Scope R_scope.

Section Time.
Context {X A : Type}.
Variable inner : X -> bool.
Notation arr := (X -> R).

(** conserved and primitive arrays and everything else (qh, gradients, switches, buffers) *)
Record phys := mkPhys { pQ : arr; pq : arr; pA : A }.
(** the physics of a case.  rhs t: RHS(mb) with mb.titme = t (RHS.py:11-54): dQ and the arrays it touches;
    con t / conP t: consistify(mb), consistify(mb,"prims") with mb.titme = t (consistify.py:12-50);
    stiff dt: strang.py:72-90; dtau: localDtau (dualTime.cpp:36-105); solve dt: invertDQ (dualTime.cpp:244-594). *)
Record env := mkEnv { rhs : R -> phys -> arr * phys; con : R -> phys -> phys; conP : R -> phys -> phys;
                      stiff : R -> phys -> phys; dtau : phys -> arr; solve : R -> phys -> arr -> arr -> arr }.
(** the solver object: arrays of all blocks, the counters of the multi-block object and of each block (nrt, tme, titme) *)
Record solver := mkSolver { ph : phys; aQ0 : arr; aQ1 : arr; aQ2 : arr; aQ3 : arr; adQ : arr; aQn : arr; aQnm1 : arr; aDtau : arr;
                            nrt : Z; tme : R; titme : R; blks : list (Z * R * R) }.
Definition setPh (p : phys) (s : solver) : solver := mkSolver p (aQ0 s) (aQ1 s) (aQ2 s) (aQ3 s) (adQ s) (aQn s) (aQnm1 s) (aDtau s) (nrt s) (tme s) (titme s) (blks s).
Definition setQ (f : arr) (s : solver) : solver := setPh (mkPhys f (pq (ph s)) (pA (ph s))) s.
Definition setq (f : arr) (s : solver) : solver := setPh (mkPhys (pQ (ph s)) f (pA (ph s))) s.
Definition setQ0 (f : arr) (s : solver) : solver := mkSolver (ph s) f (aQ1 s) (aQ2 s) (aQ3 s) (adQ s) (aQn s) (aQnm1 s) (aDtau s) (nrt s) (tme s) (titme s) (blks s).
Definition setQ1 (f : arr) (s : solver) : solver := mkSolver (ph s) (aQ0 s) f (aQ2 s) (aQ3 s) (adQ s) (aQn s) (aQnm1 s) (aDtau s) (nrt s) (tme s) (titme s) (blks s).
Definition setQ2 (f : arr) (s : solver) : solver := mkSolver (ph s) (aQ0 s) (aQ1 s) f (aQ3 s) (adQ s) (aQn s) (aQnm1 s) (aDtau s) (nrt s) (tme s) (titme s) (blks s).
Definition setQ3 (f : arr) (s : solver) : solver := mkSolver (ph s) (aQ0 s) (aQ1 s) (aQ2 s) f (adQ s) (aQn s) (aQnm1 s) (aDtau s) (nrt s) (tme s) (titme s) (blks s).
Definition setdQ (f : arr) (s : solver) : solver := mkSolver (ph s) (aQ0 s) (aQ1 s) (aQ2 s) (aQ3 s) f (aQn s) (aQnm1 s) (aDtau s) (nrt s) (tme s) (titme s) (blks s).
Definition setQn (f : arr) (s : solver) : solver := mkSolver (ph s) (aQ0 s) (aQ1 s) (aQ2 s) (aQ3 s) (adQ s) f (aQnm1 s) (aDtau s) (nrt s) (tme s) (titme s) (blks s).
Definition setQnm1 (f : arr) (s : solver) : solver := mkSolver (ph s) (aQ0 s) (aQ1 s) (aQ2 s) (aQ3 s) (adQ s) (aQn s) f (aDtau s) (nrt s) (tme s) (titme s) (blks s).
Definition setDtau (f : arr) (s : solver) : solver := mkSolver (ph s) (aQ0 s) (aQ1 s) (aQ2 s) (aQ3 s) (adQ s) (aQn s) (aQnm1 s) f (nrt s) (tme s) (titme s) (blks s).
(** the property setters (restart.py:32-46, solver.py:82-86) write the object and every block *)
Definition setNrt (v : Z) (s : solver) : solver := mkSolver (ph s) (aQ0 s) (aQ1 s) (aQ2 s) (aQ3 s) (adQ s) (aQn s) (aQnm1 s) (aDtau s) v (tme s) (titme s) (map (fun '(_, t, u) => (v, t, u)) (blks s)).
Definition setTme (v : R) (s : solver) : solver := mkSolver (ph s) (aQ0 s) (aQ1 s) (aQ2 s) (aQ3 s) (adQ s) (aQn s) (aQnm1 s) (aDtau s) (nrt s) v (titme s) (map (fun '(n, _, u) => (n, v, u)) (blks s)).
Definition setTitme (v : R) (s : solver) : solver := mkSolver (ph s) (aQ0 s) (aQ1 s) (aQ2 s) (aQ3 s) (adQ s) (aQn s) (aQnm1 s) (aDtau s) (nrt s) (tme s) v (map (fun '(n, t, _) => (n, t, v)) (blks s)).

(** a kernel over the interior *)
Definition upd (old new : arr) : arr := fun x => if inner x then new x else old x.
Definition Q (s : solver) : arr := pQ (ph s).
Definition q (s : solver) : arr := pq (ph s).

(** axpby.cpp:18-48, over the full extents *)
Definition AEQB (b : arr) : arr := b.
Definition ApEQxB (a : arr) (x : R) (b : arr) : arr := fun i => a i + x * b i.
(** maccormackStages.cpp:5-17 *)
Definition corrector (dt : R) (s : solver) : solver := setQ (upd (Q s) (fun x => 5/10 * (aQ0 s x + Q s x + dt * adQ s x))) s.
(** rk2Stages.cpp:5-32 *)
Definition rk2s1 (dt : R) (s : solver) : solver := setQ (upd (Q s) (fun x => Q s x + adQ s x * dt)) (setQ0 (upd (aQ0 s) (Q s)) s).
Definition rk2s2 (dt : R) (s : solver) : solver := setQ (upd (Q s) (fun x => 5/10 * aQ0 s x + 5/10 * (Q s x + dt * adQ s x))) s.
(** rk3Stages.cpp:5-47 *)
Definition rk3s1 (dt : R) (s : solver) : solver := setQ (upd (Q s) (fun x => Q s x + dt * adQ s x)) (setQ0 (upd (aQ0 s) (Q s)) s).
Definition rk3s2 (dt : R) (s : solver) : solver := setQ (upd (Q s) (fun x => 75/100 * aQ0 s x + 25/100 * Q s x + 25/100 * adQ s x * dt)) s.
Definition rk3s3 (dt : R) (s : solver) : solver := setQ (upd (Q s) (fun x => (aQ0 s x + 2 * Q s x + 2 * adQ s x * dt) / 3)) s.
(** rk34Stages.cpp:5-59 *)
Definition rk34s1 (dt : R) (s : solver) : solver := setQ (upd (Q s) (fun x => Q s x + 5/10 * dt * adQ s x)) (setQ0 (upd (aQ0 s) (Q s)) s).
Definition rk34s2 (dt : R) (s : solver) : solver := setQ (upd (Q s) (fun x => Q s x + 5/10 * dt * adQ s x)) s.
Definition rk34s3 (dt : R) (s : solver) : solver := setQ (upd (Q s) (fun x => 2/3 * aQ0 s x + 1/3 * Q s x + 1/6 * adQ s x * dt)) s.
Definition rk34s4 (dt : R) (s : solver) : solver := setQ (upd (Q s) (fun x => Q s x + 5/10 * adQ s x * dt)) s.
(** rk4Stages.cpp:5-63 *)
Definition rk4s1 (dt : R) (s : solver) : solver :=
  let s1 := setQ0 (upd (aQ0 s) (Q s)) s in let s2 := setQ1 (upd (aQ1 s1) (fun x => dt * adQ s1 x)) s1 in
  setQ (upd (Q s2) (fun x => aQ0 s2 x + 5/10 * aQ1 s2 x)) s2.
Definition rk4s2 (dt : R) (s : solver) : solver :=
  let s1 := setQ2 (upd (aQ2 s) (fun x => dt * adQ s x)) s in setQ (upd (Q s1) (fun x => aQ0 s1 x + 5/10 * aQ2 s1 x)) s1.
Definition rk4s3 (dt : R) (s : solver) : solver :=
  let s1 := setQ3 (upd (aQ3 s) (fun x => dt * adQ s x)) s in setQ (upd (Q s1) (fun x => aQ0 s1 x + aQ3 s1 x)) s1.
Definition rk4s4 (dt : R) (s : solver) : solver :=
  setQ (upd (Q s) (fun x => aQ0 s x + (aQ1 s x + 2 * aQ2 s x + 2 * aQ3 s x + dt * adQ s x) / 6)) s.

Variable E : env.
(** RHS(self) and consistify(self): they read mb.titme *)
Definition RHS (s : solver) : solver := let '(d, p) := rhs E (titme s) (ph s) in setdQ d (setPh p s).
Definition consistify (s : solver) : solver := setPh (con E (titme s) (ph s)) s.
Definition consistifyP (s : solver) : solver := setPh (conP E (titme s) (ph s)) s.
(** the end of every explicit step (e.g. rk3.py:45-47): nrt += 1; tme += dt; titme = tme *)
Definition finish (dt : R) (s : solver) : solver :=
  let s1 := setNrt (nrt s + 1) s in let s2 := setTme (tme s1 + dt) s1 in setTitme (tme s2) s2.

(** rk1.py:13-26 *)
Definition rk1_step (dt : R) (s : solver) : solver :=
  let s := RHS (setTitme (tme s) s) in
  let s := consistify (setQ (ApEQxB (Q s) dt (adQ s)) s) in finish dt s.
(** maccormack.py:14-38: the corrector's RHS runs with titme = tme *)
Definition maccormack_step (dt : R) (s : solver) : solver :=
  let s := setQ0 (AEQB (Q s)) s in
  let s := RHS (setTitme (tme s) s) in
  let s := consistify (setQ (ApEQxB (Q s) dt (adQ s)) s) in
  let s := RHS s in
  finish dt (consistify (corrector dt s)).
(** rk2.py:13-34 *)
Definition rk2_step (dt : R) (s : solver) : solver :=
  let s := consistify (rk2s1 dt (RHS (setTitme (tme s) s))) in
  let s := consistify (rk2s2 dt (RHS (setTitme (tme s + dt) s))) in finish dt s.
(** rk3.py:19-47, and strang.py:32-58 (non_stiff) without the counters *)
Definition rk3_stages (dt : R) (s : solver) : solver :=
  let s := consistify (rk3s1 dt (RHS (setTitme (tme s) s))) in
  let s := consistify (rk3s2 dt (RHS (setTitme (tme s + dt) s))) in
  consistify (rk3s3 dt (RHS (setTitme (tme s + dt / 2) s))).
Definition rk3_step (dt : R) (s : solver) : solver := finish dt (rk3_stages dt s).
(** rk34.py:13-52 *)
Definition rk34_step (dt : R) (s : solver) : solver :=
  let s := consistify (rk34s1 dt (RHS (setTitme (tme s) s))) in
  let s := consistify (rk34s2 dt (RHS (setTitme (tme s + dt / 2) s))) in
  let s := consistify (rk34s3 dt (RHS (setTitme (tme s + dt) s))) in
  let s := consistify (rk34s4 dt (RHS (setTitme (tme s + dt / 2) s))) in finish dt s.
(** rk4.py:13-52 *)
Definition rk4_step (dt : R) (s : solver) : solver :=
  let s := consistify (rk4s1 dt (RHS (setTitme (tme s) s))) in
  let s := consistify (rk4s2 dt (RHS (setTitme (tme s + dt / 2) s))) in
  let s := consistify (rk4s3 dt (RHS (setTitme (tme s + dt / 2) s))) in
  let s := consistify (rk4s4 dt (RHS (setTitme (tme s + dt) s))) in finish dt s.
(** strang.py:60-105: the last line sets titme = tme + dt after tme += dt *)
Definition strang_step (dt : R) (s : solver) : solver :=
  let s := rk3_stages (dt / 2) s in
  let s := consistify (setPh (stiff E dt (ph s)) s) in
  let s := rk3_stages (dt / 2) s in
  let s1 := setNrt (nrt s + 1) s in let s2 := setTme (tme s1 + dt) s1 in setTitme (tme s2 + dt) s2.

(** dualTime.cpp:21-34 *)
Definition dQdt (dt : R) (s : solver) : solver :=
  setdQ (upd (adQ s) (fun x => adQ s x - (3 * Q s x - 4 * aQn s x + aQnm1 s x) / (2 * dt))) s.
Definition invertDQ (dt : R) (s : solver) : solver := setdQ (upd (adQ s) (solve E dt (ph s) (aDtau s) (adQ s))) s.
(** dualTime.cpp:107-149 *)
Definition DTrk3s1 (s : solver) : solver := setq (upd (q s) (fun x => q s x + aDtau s x * adQ s x)) (setQ0 (upd (aQ0 s) (q s)) s).
Definition DTrk3s2 (s : solver) : solver := setq (upd (q s) (fun x => 75/100 * aQ0 s x + 25/100 * q s x + 25/100 * adQ s x * aDtau s x)) s.
Definition DTrk3s3 (s : solver) : solver := setq (upd (q s) (fun x => (aQ0 s x + 2 * q s x + 2 * adQ s x * aDtau s x) / 3)) s.
(** dualTime.py:48-94, one pseudo-time iteration (the printing is omitted) *)
Definition dualIter (dt : R) (s : solver) : solver :=
  let s := setDtau (upd (aDtau s) (dtau E (ph s))) s in
  let s := consistifyP (DTrk3s1 (invertDQ dt (dQdt dt (RHS (setTitme (tme s) s))))) in
  let s := consistifyP (DTrk3s2 (invertDQ dt (dQdt dt (RHS (setTitme (tme s + dt) s))))) in
  consistifyP (DTrk3s3 (invertDQ dt (dQdt dt (RHS (setTitme (tme s + dt / 2) s))))).
Fixpoint iterate (n : nat) (f : solver -> solver) (s : solver) : solver := match n with O => s | S k => iterate k f (f s) end.
(** dualTime.py:39-116 *)
Definition dualTime_step (dt : R) (s : solver) : solver :=
  let s := iterate 20 (dualIter dt) s in
  let s := setQnm1 (AEQB (aQn s)) s in let s := setQn (AEQB (Q s)) s in finish dt s.
(** dualTime.py:121-142.  qnm1 is what the Qnm1 restart files hold, None if absent. *)
Definition initializeDualTime (file : option arr) (s : solver) : solver :=
  if Z.eqb (nrt s) 0 then setQnm1 (AEQB (Q s)) (setQn (AEQB (Q s)) s)
  else let s1 := match file with Some f => setQnm1 (upd (aQnm1 s) f) s | None => setQnm1 (AEQB (Q s)) s end in setQn (AEQB (Q s1)) s1.

(** integrators/__init__.py:11-29; None is the ValueError *)
Definition getIntegrator (ti : string) : option (R -> solver -> solver) :=
  if String.eqb ti "rk1" then Some rk1_step else if String.eqb ti "rk2" then Some rk2_step
  else if String.eqb ti "maccormack" then Some maccormack_step else if String.eqb ti "rk3" then Some rk3_step
  else if String.eqb ti "rk34" then Some rk34_step else if String.eqb ti "rk4" then Some rk4_step
  else if String.eqb ti "strang" then Some strang_step else if String.eqb ti "dualTime" then Some dualTime_step else None.
(** the run loop calls step once per iteration; any sequence of step sizes *)
Fixpoint run (step : R -> solver -> solver) (dts : list R) (s : solver) : solver :=
  match dts with [] => s | dt :: l => run step l (step dt s) end.
End Time.
Arguments phys : clear implicits. Arguments env : clear implicits. Arguments solver : clear implicits.
