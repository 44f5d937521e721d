(** Lemmas about the run loop: the events of one iteration. *)
From Coq Require Import Reals ZArith NArith List Bool String Ascii Lia.
From Verif Require Import M_Procs M_Io M_Run S_Run.
Import ListNotations.
Open Scope Z_scope.

Section L.
Context {St : Type} (dtOf : R -> St -> R) (step : R -> St -> St) (nans : St -> Z).
Variables (c : rcfg) (rank n0 : Z) (s0 : St) (t0 d0 : R).
Hypotheses (HR : niterRestart c <> 0) (HA : niterArchive c <> 0) (HP : niterPrint c <> 0).

Fixpoint hist (k : nat) : St * R * R :=
  match k with O => (s0, t0, d0) | S k => let '(s, t, d) := hist k in (step (dtOf d s) s, (t + dtOf d s)%R, dtOf d s) end.
Definition sA k := fst (fst (hist k)). Definition tA k := snd (fst (hist k)). Definition dA k := snd (hist k).
Lemma hist_after k : after dtOf step s0 t0 d0 k (sA k) (tA k) (dA k).
Proof.
  unfold sA, tA, dA. induction k as [|k IH]; [constructor|]. cbn [hist]. destruct (hist k) as [[s t] d]. cbn [fst snd] in *. constructor. exact IH.
Qed.
Lemma after_fun k s t d : after dtOf step s0 t0 d0 k s t d -> s = sA k /\ t = tA k /\ d = dA k.
Proof.
  unfold sA, tA, dA. induction 1 as [|k s t d H (A & B & C)]; [now repeat split|]. cbn [hist]. destruct (hist k) as [[s' t'] d']. cbn [fst snd] in *. subst. now repeat split.
Qed.
Lemma sA_S k : sA (S k) = step (dtOf (dA k) (sA k)) (sA k). Proof. unfold sA, tA, dA. cbn [hist]. now destruct (hist k) as [[s t] d]. Qed.
Lemma tA_S k : tA (S k) = (tA k + dtOf (dA k) (sA k))%R. Proof. unfold sA, tA, dA. cbn [hist]. now destruct (hist k) as [[s t] d]. Qed.
Lemma dA_S k : dA (S k) = dtOf (dA k) (sA k). Proof. unfold sA, tA, dA. cbn [hist]. now destruct (hist k) as [[s t] d]. Qed.

Definition nA (k : nat) : Z := n0 + Z.of_nat k.
Definition due (i : Z) (k : nat) : bool := nA k mod i =? 0.
Lemma due_div i k : i <> 0 -> due i k = true <-> (i | nA k). Proof. intros H. unfold due. rewrite Z.eqb_eq. now apply Z.mod_divide. Qed.
Definition chk (k : nat) : bool := negb (checkNan c =? 0) && due (checkNan c) k.
Definition stop (k : nat) : bool := chk k && (nans (sA k) >? 0).
Lemma stop_spec k : stop k = true <-> stopsAt dtOf step nans (checkNan c) n0 s0 t0 d0 k.
Proof.
  unfold stop, chk, stopsAt, checked. rewrite !andb_true_iff, negb_true_iff, Z.eqb_neq, Z.gtb_lt. split.
  - intros [[A B] C]. split; [split; [exact A | now apply (due_div _ k A)]|]. exists (sA k), (tA k), (dA k). split; [apply hist_after | lia].
  - intros [[A B] (s & t & d & H & G)]. destruct (after_fun _ _ _ _ H) as (-> & _ & _). split; [split; [exact A | now apply (due_div _ k A)]|lia].
Qed.
(* the events of iteration k >= 1, oldest first *)
Definition ePrint k : list (event St) := if due (niterPrint c) (pred k) && (rank =? 0) then [EPrint St (nA (pred k)) (tA (pred k)) (dA k)] else [].
Definition eStep k : list (event St) := [EStep St (nA k) (tA k) (dA k) (sA k)].
Definition eRest k : list (event St) := if due (niterRestart c) k then ERestart St (animateRestart c) false (nA k) (tA k) (sA k) :: (if isDual c then [EQnm1 St (animateRestart c) (nA k) (sA k)] else []) else [].
Definition eArch k : list (event St) := if due (niterArchive c) k then EArchive St (nA k) (tA k) (sA k) :: map (fun v => EExtra St v (nA k) (tA k) (sA k)) (extraVars c) else [].
Definition eChk k : list (event St) := if chk k then [ECheck St (nA k) (sA k)] else [].
Definition eEnd k : list (event St) := if stop k then [ERestart St true true 99999999 (tA k) (sA k); EAbort St] else [ECoproc St (nA k) (tA k) (sA k)].
Definition evs k := ePrint k ++ eStep k ++ eRest k ++ eArch k ++ eChk k ++ eEnd k.
Definition at_ (k : nat) (m : mb St) : Prop :=
  st _ m = sA k /\ nrt _ m = nA k /\ tme _ m = tA k /\ cfgDt _ m = dA k /\ animate _ m = animateRestart c /\ single _ m = false.

Lemma advance_spec k m : at_ k m -> exists m', advance St dtOf step c rank m = Some m' /\ at_ (S k) m' /\ log _ m' = rev (ePrint (S k) ++ eStep (S k)) ++ log _ m.
Proof.
  intros (A & B & C & D & E & F). unfold advance. destruct (niterPrint c =? 0) eqn:Z0; [apply Z.eqb_eq in Z0; contradiction|]. cbv zeta. cbn [st nrt tme cfgDt animate single log].
  eexists. split; [reflexivity|].
  assert (N : nA (S k) = nA k + 1) by (unfold nA; lia).
  unfold ePrint, eStep, due. cbn [pred]. rewrite B, N.
  destruct ((nA k mod niterPrint c =? 0) && (rank =? 0)); cbn [emit st nrt tme cfgDt animate single log rev app];
    (split; [unfold at_; cbn [st nrt tme cfgDt animate single]; rewrite A, ?B, C, D, E, F, N, sA_S, tA_S, dA_S; repeat split; reflexivity | rewrite A, C, D, ?B, sA_S, tA_S, dA_S; reflexivity]).
Qed.
Lemma restart_spec k m : at_ k m -> exists m', restart St c m = Some m' /\ at_ k m' /\ log _ m' = rev (eRest k) ++ log _ m.
Proof.
  intros (A & B & C & D & E & F). unfold restart. destruct (niterRestart c =? 0) eqn:Z0; [apply Z.eqb_eq in Z0; contradiction|]. eexists. split; [reflexivity|].
  unfold eRest, due. rewrite B. destruct (nA k mod niterRestart c =? 0); [|split; [repeat split; assumption | reflexivity]].
  cbv zeta. destruct (isDual c); cbn [emit st nrt tme cfgDt animate single log rev app]; (split; [repeat split; assumption | rewrite A, C, E, F, ?B; reflexivity]).
Qed.
Lemma archive_spec k m : at_ k m -> exists m', archive St c m = Some m' /\ at_ k m' /\ log _ m' = rev (eArch k) ++ log _ m.
Proof.
  intros (A & B & C & D & E & F). unfold archive. destruct (niterArchive c =? 0) eqn:Z0; [apply Z.eqb_eq in Z0; contradiction|]. eexists. split; [reflexivity|].
  unfold eArch, due. rewrite B. destruct (nA k mod niterArchive c =? 0); [|split; [repeat split; assumption | reflexivity]].
  assert (X : forall vs m, at_ k m -> at_ k (fold_left (fun m v => emit St (EExtra St v (nrt St m) (tme St m) (st St m)) m) vs m) /\
     log _ (fold_left (fun m v => emit St (EExtra St v (nrt St m) (tme St m) (st St m)) m) vs m) = rev (map (fun v => EExtra St v (nA k) (tA k) (sA k)) vs) ++ log _ m).
  { induction vs as [|v vs IH]; intros m' (A' & B' & C' & D' & E' & F'); cbn [fold_left map rev app]; [split; [repeat split; assumption | reflexivity]|].
    destruct (IH (emit St (EExtra St v (nrt St m') (tme St m') (st St m')) m')) as [P Q]; [repeat split; assumption|]. split; [exact P|]. rewrite Q. cbn [emit log]. rewrite A', B', C', <- app_assoc. reflexivity. }
  destruct (X (extraVars c) (emit St (EArchive St (nA k) (tme St m) (st St m)) m)) as [P Q]; [repeat split; assumption|]. split; [exact P|].
  rewrite Q. cbn [emit log rev]. rewrite A, C, <- app_assoc. reflexivity.
Qed.
Lemma nanCheck_spec k m : at_ k m -> exists m', nanCheck St nans c m = (m', stop k) /\ (if stop k then True else at_ k m') /\
  log _ m' = rev (eChk k ++ if stop k then [ERestart St true true 99999999 (tA k) (sA k); EAbort St] else []) ++ log _ m.
Proof.
  intros (A & B & C & D & E & F). unfold nanCheck, stop, eChk, chk, due. rewrite B. destruct (checkNan c =? 0); cbn [negb andb].
  { exists m. repeat split; assumption. }
  destruct (nA k mod checkNan c =? 0); [|exists m; repeat split; assumption]. cbv zeta. cbn [andb emit st nrt tme cfgDt animate single log]. rewrite A.
  destruct (nans (sA k) >? 0); eexists; (split; [reflexivity|]).
  - split; [exact Logic.I|]. cbn [log rev app]. rewrite C. reflexivity.
  - split; [repeat split; assumption | reflexivity].
Qed.
(* the first stop at or after j + 1 *)
Fixpoint len (j : nat) (k : nat) : nat := match k with O => O | S k' => if stop (S j) then 1%nat else S (len (S j) k') end.
Lemma loop_spec k : forall j m, at_ j m -> exists m', loop St dtOf step nans c rank k m = Finished St m' /\ log _ m' = rev (flat_map evs (seq (S j) (len j k))) ++ log _ m.
Proof.
  induction k as [|k IH]; intros j m H; cbn [loop len]; [exists m; split; reflexivity|].
  destruct (advance_spec _ _ H) as (m1 & E1 & H1 & L1). rewrite E1. destruct (restart_spec _ _ H1) as (m2 & E2 & H2 & L2). rewrite E2.
  destruct (archive_spec _ _ H2) as (m3 & E3 & H3 & L3). rewrite E3. destruct (nanCheck_spec _ _ H3) as (m4 & E4 & H4 & L4). rewrite E4.
  assert (LL : log _ m4 = rev (ePrint (S j) ++ eStep (S j) ++ eRest (S j) ++ eArch (S j) ++ eChk (S j) ++ (if stop (S j) then [ERestart St true true 99999999 (tA (S j)) (sA (S j)); EAbort St] else [])) ++ log _ m).
  { rewrite L4, L3, L2, L1, !rev_app_distr, <- !app_assoc. reflexivity. }
  destruct (stop (S j)) eqn:Hs.
  - exists m4. split; [reflexivity|]. cbn [seq flat_map]. unfold evs, eEnd. rewrite Hs, app_nil_r. exact LL.
  - destruct H4 as (A & B & C & D & E & F).
    destruct (IH (S j) (emit St (ECoproc St (nrt St m4) (tme St m4) (st St m4)) m4)) as (m' & Em & Lm); [repeat split; assumption|].
    exists m'. split; [exact Em|]. rewrite Lm. cbn [emit log seq flat_map]. rewrite rev_app_distr, <- app_assoc. f_equal.
    rewrite LL, app_nil_r. rewrite A, B, C. unfold evs, eEnd. rewrite Hs.
    rewrite !rev_app_distr. cbn [rev app]. rewrite <- !app_assoc. reflexivity.
Qed.
Lemma len_spec k : forall j, (len j k <= k)%nat /\ (forall i, (1 <= i < len j k)%nat -> stop (j + i) = false) /\ (len j k = k \/ (1 <= len j k)%nat /\ stop (j + len j k) = true).
Proof.
  induction k as [|k IH]; intros j; cbn [len]; [repeat split; [lia | lia | left; reflexivity]|].
  destruct (stop (S j)) eqn:Hs.
  - repeat split; [lia | lia | right; split; [lia | now rewrite Nat.add_1_r]].
  - destruct (IH (S j)) as (A & B & C). repeat split; [lia | |].
    + intros i Hi. destruct (Nat.eq_dec i 1) as [->|]; [now rewrite Nat.add_1_r|]. specialize (B (i - 1)%nat ltac:(lia)). replace (S j + (i - 1))%nat with (j + i)%nat in B by lia. exact B.
    + destruct C as [C | [C C']]; [left; lia | right; split; [lia|]]. replace (j + S (len (S j) k))%nat with (S j + len (S j) k)%nat by lia. exact C'.
Qed.
Lemma stop_last k K i : K = len 0 k -> In i (seq 1 K) -> stop i = true -> i = K.
Proof.
  intros -> Hi Hs. apply in_seq in Hi. destruct (len_spec k 0) as (_ & B & _). destruct (Nat.eq_dec i (len 0 k)); [assumption|]. specialize (B i ltac:(lia)). cbn [plus] in B. congruence.
Qed.
End L.

(* projections of flat_map *)
Lemma filter_map_flat {A B} (p : A -> option B) (f : nat -> list A) (g : nat -> list B) l :
  let pick := fun xs => flat_map (fun x => match p x with Some b => [b] | None => [] end) xs in
  (forall k, In k l -> pick (f k) = g k) -> pick (flat_map f l) = flat_map g l.
Proof.
  intros pick H. induction l as [|k l IH]; [reflexivity|]. cbn [flat_map]. unfold pick in *. rewrite flat_map_app, IH by (intros; apply H; now right). f_equal. apply H. now left.
Qed.
Lemma flat_map_filter {A B} (P : A -> bool) (g : A -> B) l : flat_map (fun k => if P k then [g k] else []) l = map g (filter P l).
Proof. induction l as [|k l IH]; [reflexivity|]. cbn [flat_map filter]. rewrite IH. now destruct (P k). Qed.
Lemma ascending_seq a n : ascending (seq a n).
Proof. revert a; induction n as [|n IH]; intros a; [constructor|]. cbn [seq]. destruct n; [constructor|]. cbn [seq] in *. constructor; [lia | apply IH]. Qed.
Lemma ascending_filter P l : ascending l -> ascending (filter P l).
Proof.
  assert (X : forall l x, ascending (x :: l) -> forall y, In y l -> (x < y)%nat).
  { clear. induction l as [|z l IH]; intros x H y Hy; [destruct Hy|]. inversion H; subst. destruct Hy as [->|Hy]; [assumption|]. enough (z < y)%nat by lia. now apply IH. }
  assert (Y : forall l x, (forall y, In y l -> (x < y)%nat) -> ascending l -> ascending (x :: l)).
  { clear. intros [|z l] x H A; [constructor|]. constructor; [apply H; now left | exact A]. }
  induction l as [|x l IH]; intros H; [constructor|]. cbn [filter]. assert (A : ascending l) by (inversion H; [constructor | assumption]).
  destruct (P x); [|now apply IH]. apply Y; [|now apply IH]. intros y Hy. apply filter_In in Hy. now apply (X l).
Qed.
Lemma lists_filter K P (Q : nat -> Prop) : (forall k, (1 <= k <= K)%nat -> (P k = true <-> Q k)) -> lists K Q (filter P (seq 1 K)).
Proof.
  intros H. split; [apply ascending_filter, ascending_seq|]. intros k. rewrite filter_In, in_seq. split.
  - intros [A B]. split; [lia|]. apply H; [lia | exact B].
  - intros [A B]. split; [lia|]. apply H; [lia | exact B].
Qed.
