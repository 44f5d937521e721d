(** Properties C12, C13: communicate() running concurrently on all ranks (M_Mpi.v). *)
From Coq Require Import ZArith String List Bool Lia.
From Verif Require Import M_Topology S_Topology M_Halo S_Halo L_Halo3 L_Halo4 L_Halo5 P_Halo M_Mpi L_Mpi1 L_Mpi2.
Import ListNotations.
Open Scope Z_scope.

(** n-step executions *)
Inductive nsteps {S M} (ranks : list Z) (prog : Z -> list (instr S M)) (sync : bool) : nat -> config S M -> config S M -> Prop :=
| ns_0 : forall c, nsteps ranks prog sync 0 c c
| ns_S : forall n c1 c2 c3, nsteps ranks prog sync n c1 c2 -> step ranks prog sync c2 c3 -> nsteps ranks prog sync (1 + n) c1 c3.

Lemma step_weaken {S M} ranks (prog : Z -> list (instr S M)) c c' : step ranks prog true c c' -> step ranks prog false c c'.
Proof.
  intros H. destruct H.
  - eapply s_recv; eauto.
  - eapply s_send; eauto; discriminate.
  - eapply s_wait; eauto.
  - eapply s_arrive; eauto.
  - eapply s_leave; eauto.
Qed.
Lemma steps_weaken {S M} ranks (prog : Z -> list (instr S M)) sync c c' : steps ranks prog sync c c' -> steps ranks prog false c c'.
Proof. induction 1; [constructor|]. eapply steps_more; eauto. destruct sync; auto. now apply step_weaken. Qed.

(** C12.  Whatever has happened so far under any buffering behaviour, as long as some rank has not
    finished, some rank can take a step, even if every Send from now on blocks until its receive is
    posted. *)
Theorem C12_no_deadlock : forall (V : Type) ng w cw kinds nv (loc0 : Z -> memory V) c,
  conforming ng w -> setupAll ng w = Some cw ->
  steps (rankList cw) (communicateProg ng kinds cw nv) false (initial loc0) c ->
  ~ finished (rankList cw) (communicateProg ng kinds cw nv) c ->
  exists c', step (rankList cw) (communicateProg ng kinds cw nv) true c c'.
Proof.
  intros V ng w cw kinds nv loc0 c C E St NF.
  pose proof (inst_Hsend (V:=V) ng w cw kinds C E) as H1. pose proof (inst_Hrecv (V:=V) ng w cw kinds C E) as H2.
  pose proof (inst_NDr (V:=V) ng w cw kinds C E) as H3. pose proof (inst_NDs (V:=V) ng w cw kinds C E) as H4.
  eapply (progress (rankList cw) (rankFaces ng kinds cw) nv loc0); eauto.
  eapply inv_steps; eauto. apply inv_initial.
Qed.

(** ... and no execution goes on for ever: every execution has at most as many steps as the ranks
    have instructions.  Together: every maximal execution ends with all ranks finished. *)
Theorem C12_terminates : forall (V : Type) ng cw kinds nv (loc0 : Z -> memory V) sync n c,
  nsteps (rankList cw) (communicateProg ng kinds cw nv) sync n (initial loc0) c ->
  (n <= fold_right (fun r a => length (@communicateProg V ng kinds cw nv r) + a) 0 (rankList cw))%nat.
Proof.
  intros V ng cw kinds nv loc0 sync n c H.
  assert (G: forall n c0 c, nsteps (rankList cw) (@communicateProg V ng kinds cw nv) sync n c0 c ->
     (n + work (rankFaces ng kinds cw) nv c (rankList cw) <= work (rankFaces ng kinds cw) nv c0 (rankList cw))%nat).
  { clear. induction 1; [lia|]. pose proof (work_step _ _ _ _ _ _ H0). lia. }
  pose proof (G _ _ _ H) as L. unfold work at 2 in L.
  assert (X: forall l, fold_right (fun r a => (length (L_Mpi1.prog (rankFaces (V:=V) ng kinds cw) nv r) - pc (@initial (memory V) (message V) loc0) r + a)%nat) 0%nat l
     = fold_right (fun r a => (length (@communicateProg V ng kinds cw nv r) + a)%nat) 0%nat l).
  { induction l as [|a l IH]; cbn [fold_right]; auto. rewrite IH. unfold L_Mpi1.prog, communicateProg. cbn [pc initial]. lia. }
  rewrite X in L. lia.
Qed.

(** From every reachable situation the exchange can be completed, and (previous theorem) is. *)
Theorem C12_completes : forall (V : Type) ng w cw kinds nv (loc0 : Z -> memory V) c,
  conforming ng w -> setupAll ng w = Some cw ->
  steps (rankList cw) (communicateProg ng kinds cw nv) false (initial loc0) c ->
  exists c', steps (rankList cw) (communicateProg ng kinds cw nv) true c c' /\
    finished (rankList cw) (communicateProg ng kinds cw nv) c'.
Proof.
  intros V ng w cw kinds nv loc0 c C E.
  remember (work (rankFaces ng kinds cw) nv c (rankList cw)) as n eqn:En. revert c En.
  induction n as [n IH] using lt_wf_ind. intros c En St.
  assert (D: {finished (rankList cw) (communicateProg ng kinds cw nv) c} + {~ finished (rankList cw) (communicateProg ng kinds cw nv) c}).
  { unfold finished. clear. induction (rankList cw) as [|a l IH]; [left; intros r []|].
    destruct (Nat.eq_dec (pc c a) (length (@communicateProg V ng kinds cw nv a))) as [e|ne].
    - destruct IH as [IH|IH]; [left; intros r [<-|H]; auto|right; intros H; apply IH; intros r Hr; apply H; now right].
    - right. intros H. apply ne. apply H. now left. }
  destruct D as [D|D].
  - exists c. split; [constructor|auto].
  - destruct (C12_no_deadlock V ng w cw kinds nv loc0 c C E St D) as [c1 S1].
    pose proof (work_step _ _ _ _ _ _ S1) as L.
    destruct (IH _ ltac:(rewrite En; exact L) c1 eq_refl) as [c' [S2 F]].
    { eapply steps_more; eauto. now apply step_weaken. }
    exists c'. split; auto. clear -S1 S2.
    assert (G: forall a b, steps (rankList cw) (communicateProg ng kinds cw nv) true a b -> a = c1 ->
        steps (rankList cw) (communicateProg ng kinds cw nv) true c b).
    { induction 1; intros ->; [eapply steps_more; [constructor|exact S1]|]. eapply steps_more; eauto. }
    eapply G; eauto.
Qed.

(** C13.  Every complete execution, under any interleaving and buffering, leaves in every rank's
    copy of every exchanged variable exactly what the sequential exchange [communicate] (the one
    of C06-C09) computes, variable by variable; everything else is untouched. *)
Theorem C13_schedule_independent : forall (V : Type) ng w cw kinds nv (st : nat -> state V) (loc0 : Z -> memory V) sync c,
  conforming ng w -> setupAll ng w = Some cw ->
  (forall r cb v, atRank cw r cb -> loc0 r v (cb_num cb) = st v (cb_num cb)) ->
  steps (rankList cw) (communicateProg ng kinds cw nv) sync (initial loc0) c ->
  finished (rankList cw) (communicateProg ng kinds cw nv) c ->
  (forall v, (v < nv)%nat -> exists st', communicate ng (kinds v) cw (st v) = Some st' /\
     forall r cb, atRank cw r cb -> loc c r v (cb_num cb) = st' (cb_num cb)) /\
  (forall v r, (nv <= v)%nat -> In r (rankList cw) -> forall n, loc c r v n = loc0 r v n).
Proof.
  intros V ng w cw kinds nv st loc0 sync c C E L0 St Fi.
  pose proof (inst_Hsend (V:=V) ng w cw kinds C E) as H1. pose proof (inst_Hrecv (V:=V) ng w cw kinds C E) as H2.
  pose proof (inst_NDr (V:=V) ng w cw kinds C E) as H3. pose proof (inst_NDs (V:=V) ng w cw kinds C E) as H4.
  assert (I: Inv (rankList cw) (rankFaces ng kinds cw) nv loc0 c) by (eapply inv_steps; eauto; apply inv_initial).
  assert (L: forall r, In r (rankList cw) -> loc c r = big (rankFaces ng kinds cw) loc0 nv r) by (eapply finished_mem; eauto).
  destruct (big_spec ng w cw kinds C E st loc0 L0 nv) as (B1 & B2 & B3).
  split.
  - intros v Hv. destruct (comm_result ng w cw kinds C E st v) as [st' [Ec Hc]]. exists st'. split; auto.
    intros r cb Ha. rewrite L by (eapply atRank_ranks; eauto). rewrite (Hc r cb Ha). apply B2; auto.
  - intros v r Hv Hr n. rewrite L by auto. apply B1; auto.
Qed.

(** The hypotheses are met by the two-rank example of P_Halo.v (one connection between the ranks
    and one periodic self-connection on rank 1): three faces, two rounds, 32 instructions in all. *)
Example ex_mpi : exists cw, setupAll 2 exW = Some cw /\ rankList cw = [0; 1] /\
  map (fun r => length (@communicateProg Z 2 (fun _ => KCcAll) cw 2 r)) [0; 1] = [10%nat; 22%nat].
Proof. eexists. split; [vm_compute; reflexivity|]. split; reflexivity. Qed.
Example ex_mpi_runs : exists cw c, setupAll 2 exW = Some cw /\
  steps (rankList cw) (communicateProg 2 (fun _ => KCcAll) cw 2) true (initial (fun _ v n i j k => (v, n, i, j, k))) c /\
  finished (rankList cw) (communicateProg 2 (fun _ => KCcAll) cw 2) c.
Proof.
  destruct (setupAll_ok 2 exW ex_conforming) as [cw [E _]].
  destruct (C12_completes (nat * Z * Z * Z * Z) 2 exW cw (fun _ => KCcAll) 2 (fun _ v n i j k => (v, n, i, j, k)) _ ex_conforming E (steps_refl _ _ _ _)) as [c [H1 H2]].
  exists cw, c. auto.
Qed.

Print Assumptions C12_no_deadlock.
Print Assumptions C12_terminates.
Print Assumptions C12_completes.
Print Assumptions C13_schedule_independent.
