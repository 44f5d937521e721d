(** Operational model of mpiComm/communicate.py:7-83 running on all ranks concurrently.

    MPI facts that are modelled (from the MPI standard, not from /repo):
    - messages of one (source, destination, tag) channel are received in the order in which they
      were sent, into the receives of that channel in the order in which they were posted;
    - a blocking standard-mode Send may return as soon as it likes (eager), or only once the
      matching receive has been posted (rendezvous); both are allowed at every single Send;
    - Wait returns when the message matching that receive has been sent;
    - no rank leaves the k-th Barrier before every rank has entered it. *)
From Coq Require Import ZArith List Bool.
From Verif Require Import M_Halo.
Import ListNotations.
Open Scope Z_scope.

(** source rank, destination rank, tag *)
Definition channel := (Z * Z * Z)%type.
Definition ch_eqb (a b : channel) : bool :=
  (fst (fst a) =? fst (fst b)) && (snd (fst a) =? snd (fst b)) && (snd a =? snd b).

Section Semantics.
Context {S M : Type}.

(** What one rank executes, with [S] its memory and [M] message contents. *)
Inductive instr :=
| IRecv (ch : channel)                       (* comm.Irecv, communicate.py:22-26 *)
| ISend (ch : channel) (pay : S -> M)        (* extract, orient, comm.Send, communicate.py:34-56 *)
| IWait (ch : channel) (h : M -> S -> S)     (* Request.Wait and placeRecvBuffer, communicate.py:64-81 *)
| IArrive | ILeave.                          (* entering and leaving comm.Barrier, communicate.py:83 *)

Definition isRecv (ch : channel) (i : instr) : bool := match i with IRecv c => ch_eqb c ch | _ => false end.
Definition isSend (ch : channel) (i : instr) : bool := match i with ISend c _ => ch_eqb c ch | _ => false end.
Definition isWait (ch : channel) (i : instr) : bool := match i with IWait c _ => ch_eqb c ch | _ => false end.
Definition isArrive (i : instr) : bool := match i with IArrive => true | _ => false end.
Definition isLeave (i : instr) : bool := match i with ILeave => true | _ => false end.

Definition count (p : instr -> bool) (l : list instr) : nat := length (filter p l).

(** A global configuration: how many instructions each rank has executed, each rank's memory, and
    for each channel the contents sent on it so far. *)
Record config := mkConf { pc : Z -> nat; loc : Z -> S; net : channel -> list M }.

Definition upd {A} (f : Z -> A) (r : Z) (v : A) : Z -> A := fun x => if x =? r then v else f x.
Definition updc {A} (f : channel -> A) (c : channel) (v : A) : channel -> A := fun x => if ch_eqb x c then v else f x.

(** One step of rank [r]; [sync] = every Send waits for its receive (the worst case). *)
Inductive step (ranks : list Z) (prog : Z -> list instr) (sync : bool) : config -> config -> Prop :=
| s_recv : forall c r ch, In r ranks -> nth_error (prog r) (pc c r) = Some (IRecv ch) ->
    step ranks prog sync c (mkConf (upd (pc c) r (1 + pc c r)%nat) (loc c) (net c))
| s_send : forall c r ch pay, In r ranks -> nth_error (prog r) (pc c r) = Some (ISend ch pay) ->
    (sync = true ->
       (length (net c ch) < count (isRecv ch) (firstn (pc c (snd (fst ch))) (prog (snd (fst ch)))))%nat) ->
    step ranks prog sync c (mkConf (upd (pc c) r (1 + pc c r)%nat) (loc c)
                              (updc (net c) ch (net c ch ++ [pay (loc c r)])))
| s_wait : forall c r ch h m, In r ranks -> nth_error (prog r) (pc c r) = Some (IWait ch h) ->
    nth_error (net c ch) (count (isWait ch) (firstn (pc c r) (prog r))) = Some m ->
    step ranks prog sync c (mkConf (upd (pc c) r (1 + pc c r)%nat) (upd (loc c) r (h m (loc c r))) (net c))
| s_arrive : forall c r, In r ranks -> nth_error (prog r) (pc c r) = Some IArrive ->
    step ranks prog sync c (mkConf (upd (pc c) r (1 + pc c r)%nat) (loc c) (net c))
| s_leave : forall c r, In r ranks -> nth_error (prog r) (pc c r) = Some ILeave ->
    (forall r', In r' ranks ->
       (count isArrive (firstn (pc c r) (prog r)) <= count isArrive (firstn (pc c r') (prog r')))%nat) ->
    step ranks prog sync c (mkConf (upd (pc c) r (1 + pc c r)%nat) (loc c) (net c)).

Inductive steps (ranks : list Z) (prog : Z -> list instr) (sync : bool) : config -> config -> Prop :=
| steps_refl : forall c, steps ranks prog sync c c
| steps_more : forall c1 c2 c3, steps ranks prog sync c1 c2 -> step ranks prog sync c2 c3 -> steps ranks prog sync c1 c3.

Definition finished (ranks : list Z) (prog : Z -> list instr) (c : config) : Prop :=
  forall r, In r ranks -> pc c r = length (prog r).
Definition initial (loc0 : Z -> S) : config := mkConf (fun _ => 0%nat) loc0 (fun _ => []).

(** The shape of communicate(): for each variable [v] in turn, receives for all faces, sends for all
    faces, waits for all faces in the same order, barrier. *)
Record aface := mkAF { rch : channel; sch : channel; apay : nat -> S -> M; ahnd : nat -> M -> S -> S }.

Definition round (fs : list aface) (v : nat) : list instr :=
  map (fun f => IRecv (rch f)) fs ++ map (fun f => ISend (sch f) (apay f v)) fs ++
  map (fun f => IWait (rch f) (ahnd f v)) fs ++ [IArrive; ILeave].
Definition program (fs : list aface) (nv : nat) : list instr := flat_map (round fs) (seq 0 nv).
End Semantics.
Arguments instr : clear implicits.
Arguments config : clear implicits.
Arguments aface : clear implicits.

(** communicate(mb, varis) on rank [r] of the distributed multi-block [cw]: memory is, for each
    variable of the call, the arrays of the rank's blocks; [kinds v] tells whether variable [v] is
    node based, fully exchanged or first-halo only. *)
Definition memory (V : Type) := nat -> state V.
Definition mem_upd {V} (s : memory V) (v : nat) (n : Z) (a : array3 V) : memory V :=
  fun w m => if (Nat.eqb w v) && (m =? n) then a else s w m.

Definition faceProg {V} (ng : Z) (kinds : nat -> kind) (r : Z) (b : cblock) (c : commFace)
  : aface (memory V) (message V) :=
  mkAF (cf_rank c, r, cf_tagR c) (r, cf_rank c, cf_tagS c)
       (fun v s => sendMessage ng (kinds v) r c (s v (cb_num b)))
       (fun v m s => mem_upd s v (cb_num b)
                       (placeRecvBuffer (kinds v) c (recvBuffer (kinds v) c m) (s v (cb_num b)))).
Definition rankFaces {V} (ng : Z) (kinds : nat -> kind) (cw : list (list cblock)) (r : Z)
  : list (aface (memory V) (message V)) :=
  flat_map (fun b => map (faceProg ng kinds r b) (cb_faces b)) (nth (Z.to_nat r) cw []).
Definition communicateProg {V} (ng : Z) (kinds : nat -> kind) (cw : list (list cblock)) (nv : nat) (r : Z)
  : list (instr (memory V) (message V)) := program (rankFaces ng kinds cw r) nv.
Definition rankList (cw : list (list cblock)) : list Z := map Z.of_nat (seq 0 (length cw)).
