(** C80: the run loop takes the configured number of steps and writes, archives, prints and checks at the configured iterations. *)
From Coq Require Import Reals ZArith NArith List Bool String Ascii Lia Lra.
From Verif Require Import M_Procs M_Io M_Run S_Run L_Run.
Import ListNotations.
Open Scope Z_scope.

Section P.
Context {St : Type} (dtOf : R -> St -> R) (step : R -> St -> St) (nans : St -> Z).
Definition history (m : mb St) : list (event St) := rev (log St m).
Definition isStep (e : event St) : bool := match e with EStep _ _ _ _ _ => true | _ => false end.
Definition isRestart (e : event St) : bool := match e with ERestart _ _ _ _ _ _ => true | _ => false end.
Definition isQnm1 (e : event St) : bool := match e with EQnm1 _ _ _ _ => true | _ => false end.
Definition isArchive (e : event St) : bool := match e with EArchive _ _ _ _ => true | _ => false end.
Definition isExtra (v : string) (e : event St) : bool := match e with EExtra _ w _ _ _ => String.eqb v w | _ => false end.
Definition isPrint (e : event St) : bool := match e with EPrint _ _ _ _ => true | _ => false end.
Definition isCheck (e : event St) : bool := match e with ECheck _ _ _ => true | _ => false end.
Definition isCoproc (e : event St) : bool := match e with ECoproc _ _ _ _ => true | _ => false end.
Definition isFinalize (e : event St) : bool := match e with EFinalize _ => true | _ => false end.

(** the events es are those of the steps k <= K with property P, one each and in order, [mk] of the state, time and step size after k steps *)
Definition occur (s0 : St) (t0 d0 : R) (K : nat) (P : nat -> Prop) (mk : nat -> St -> R -> R -> event St) (es : list (event St)) : Prop :=
  exists ks, lists K P ks /\ Forall2 (fun k e => exists s t d, after dtOf step s0 t0 d0 k s t d /\ e = mk k s t d) ks es.
(** the usual case: intervals not zero; rank 0 also needs niter not zero *)
Definition sane (c : rcfg) (rank : Z) : Prop := niterRestart c <> 0 /\ niterArchive c <> 0 /\ niterPrint c <> 0 /\ (rank <> 0 \/ niter c <> 0).
Definition due_ (i n0 : Z) (k : nat) : Prop := (i | n0 + Z.of_nat k).

Lemma filter_flat_map {A B} (p : B -> bool) (f : A -> list B) l : filter p (flat_map f l) = flat_map (fun x => filter p (f x)) l.
Proof. induction l as [|x l IH]; [reflexivity|]. cbn [flat_map]. now rewrite filter_app, IH. Qed.
Lemma flat_map_ext_in {A B} (f g : A -> list B) l : (forall x, In x l -> f x = g x) -> flat_map f l = flat_map g l.
Proof. induction l as [|x l IH]; intros H; [reflexivity|]. cbn [flat_map]. rewrite H by now left. rewrite IH; [reflexivity|]. intros; apply H; now right. Qed.
Lemma flat_map_nil {A B} (l : list A) : flat_map (fun _ => @nil B) l = []. Proof. induction l as [|x l IH]; [reflexivity | exact IH]. Qed.
Lemma flat_map_single_last {B} (g : nat -> list B) (P : nat -> bool) K : (forall i, In i (seq 1 K) -> P i = true -> i = K) ->
  flat_map (fun k => if P k then g k else []) (seq 1 K) = if (1 <=? K)%nat && P K then g K else [].
Proof.
  intros H. destruct K as [|K]; [reflexivity|]. rewrite seq_S, flat_map_app. cbn [flat_map plus]. rewrite app_nil_r. change (1 <=? S K)%nat with true. cbn [andb].
  rewrite (flat_map_ext_in _ (fun _ => [])); [now rewrite flat_map_nil|].
  intros i Hi. destruct (P i) eqn:E; [|reflexivity]. assert (i = S K) by (apply H; [apply in_seq; apply in_seq in Hi; lia | exact E]). apply in_seq in Hi. lia.
Qed.
Lemma simulate_history c rank s0 n0 t0 d0 : sane c rank ->
  exists m K, simulate St dtOf step nans c rank (booted St c s0 n0 t0 d0) = Finished St m /\ K = len dtOf step nans c n0 s0 t0 d0 0 (Z.to_nat (niter c)) /\
    history m = flat_map (evs dtOf step nans c rank n0 s0 t0 d0) (seq 1 K) ++ [EFinalize St].
Proof.
  intros (HR & HA & HP & HN). unfold simulate.
  destruct (loop_spec dtOf step nans c rank n0 s0 t0 d0 HR HA HP (Z.to_nat (niter c)) 0 (booted St c s0 n0 t0 d0)) as (m & E & L).
  { unfold at_, booted, sA, tA, dA, nA. cbn [st nrt tme cfgDt animate single hist fst snd]. repeat split; lia. }
  rewrite E. cbv zeta. assert (X : (rank =? 0) && (niter c =? 0) = false) by (destruct HN as [H|H]; apply Z.eqb_neq in H; rewrite H; [reflexivity | apply andb_false_r]).
  rewrite X. eexists. eexists. split; [reflexivity|]. split; [reflexivity|]. unfold history. cbn [emit log rev]. rewrite L. cbn [booted log]. rewrite app_nil_r, rev_involutive. reflexivity.
Qed.
Lemma run_length c n0 s0 t0 d0 n : runLength dtOf step nans (checkNan c) n0 s0 t0 d0 n (len dtOf step nans c n0 s0 t0 d0 0 n).
Proof.
  destruct (len_spec dtOf step nans c n0 s0 t0 d0 n 0) as (A & B & C). cbn [plus] in B, C. split; [exact A|]. split.
  - intros j Hj H. apply (stop_spec dtOf step nans c n0 s0 t0 d0) in H. rewrite B in H by exact Hj. discriminate.
  - destruct C as [C | [C D]]; [now left | right]. split; [exact C|]. now apply (stop_spec dtOf step nans c n0 s0 t0 d0).
Qed.
Lemma occur_filter s0 t0 d0 K p P mk : (forall k, (1 <= k <= K)%nat -> (p k = true <-> P k)) ->
  occur s0 t0 d0 K P mk (flat_map (fun k => if p k then [mk k (sA dtOf step s0 t0 d0 k) (tA dtOf step s0 t0 d0 k) (dA dtOf step s0 t0 d0 k)] else []) (seq 1 K)).
Proof.
  intros H. exists (filter p (seq 1 K)). split; [now apply lists_filter|]. rewrite flat_map_filter. generalize (filter p (seq 1 K)) as l. induction l as [|k l IH]; [constructor|].
  cbn [map]. constructor; [|exact IH]. exists (sA dtOf step s0 t0 d0 k), (tA dtOf step s0 t0 d0 k), (dA dtOf step s0 t0 d0 k). split; [apply hist_after | reflexivity].
Qed.
Lemma filter_extras p c n t (s : St) : (forall v, p (EExtra St v n t s) = false) -> filter p (map (fun v => EExtra St v n t s) (extraVars c)) = [].
Proof. intros H. induction (extraVars c) as [|v l IH]; [reflexivity|]. cbn [map filter]. now rewrite H. Qed.
Ltac kinds := unfold evs, ePrint, eStep, eRest, eArch, eChk, eEnd; rewrite !filter_app;
  repeat match goal with |- context [if ?b then _ else _] => destruct b; cbn [filter isStep isRestart isQnm1 isArchive isExtra isPrint isCheck isCoproc isFinalize app]; try rewrite !filter_extras by reflexivity; cbn [app] end.

Variables (c : rcfg) (rank n0 : Z) (s0 : St) (t0 d0 : R).
Notation start := (booted St c s0 n0 t0 d0).
Notation Len K := (runLength dtOf step nans (checkNan c) n0 s0 t0 d0 (Z.to_nat (niter c)) K).
Notation Occur := (occur s0 t0 d0).
Notation stops K := (stopsAt dtOf step nans (checkNan c) n0 s0 t0 d0 K).

(** C80: one step per iteration, numbered consecutively; as many as configured, or up to the first failed check; after the loop the coprocessor is finalised once *)
Theorem C80_steps : sane c rank ->
  exists m K, simulate St dtOf step nans c rank start = Finished St m /\ Len K /\
    Occur K (fun _ => True) (fun k s t d => EStep St (n0 + Z.of_nat k) t d s) (filter isStep (history m)) /\ filter isFinalize (history m) = [EFinalize St].
Proof.
  intros H. destruct (simulate_history c rank s0 n0 t0 d0 H) as (m & K & E & -> & L). eexists m, _. split; [exact E|]. split; [apply run_length|]. rewrite L, !filter_app, !filter_flat_map. cbn [filter isStep isFinalize].
  rewrite app_nil_r. split.
  - erewrite flat_map_ext_in; [apply (occur_filter _ _ _ _ (fun _ => true)); tauto|]. intros k Hk. cbv beta. kinds; reflexivity.
  - rewrite (flat_map_ext_in _ (fun _ => [])); [now rewrite flat_map_nil|]. intros k Hk. kinds; reflexivity.
Qed.
(** without a stop, exactly the configured number *)
Theorem C80_all_steps : sane c rank -> (forall k, (1 <= k <= Z.to_nat (niter c))%nat -> ~ stops k) ->
  exists m, simulate St dtOf step nans c rank start = Finished St m /\ List.length (filter isStep (history m)) = Z.to_nat (niter c).
Proof.
  intros H NS. destruct (C80_steps H) as (m & K & E & (LK & _ & C) & (ks & [_ I] & F) & _). exists m. split; [exact E|].
  assert (K = Z.to_nat (niter c)) as -> by (destruct C as [C | [C C']]; [exact C | exfalso; apply (NS K); [lia | exact C']]).
  destruct (simulate_history c rank s0 n0 t0 d0 H) as (m' & K' & E' & HK & L). rewrite E in E'. assert (m = m') as <- by congruence.
  rewrite L, filter_app, filter_flat_map. cbn [filter isStep]. rewrite app_nil_r.
  rewrite (flat_map_ext_in _ (fun k => [EStep St (nA n0 k) (tA dtOf step s0 t0 d0 k) (dA dtOf step s0 t0 d0 k) (sA dtOf step s0 t0 d0 k)])) by (intros; kinds; reflexivity).
  assert (X : forall l, List.length (flat_map (fun k => [EStep St (nA n0 k) (tA dtOf step s0 t0 d0 k) (dA dtOf step s0 t0 d0 k) (sA dtOf step s0 t0 d0 k)]) l) = List.length l) by (induction l as [|x l IHl]; [reflexivity | cbn [flat_map app List.length]; now rewrite IHl]).
  rewrite X, seq_length.
  destruct (run_length c n0 s0 t0 d0 (Z.to_nat (niter c))) as (A & _ & B). rewrite <- HK in *. destruct B as [B | [B B']]; [exact B | exfalso; apply (NS K'); [lia | exact B']].
Qed.
(** C80: restarts exactly after the steps whose number is a multiple of the interval, in double precision; then, only if the run was stopped, the emergency restart *)
Theorem C80_restarts : sane c rank ->
  exists m K R1 R2, simulate St dtOf step nans c rank start = Finished St m /\ Len K /\ filter isRestart (history m) = R1 ++ R2 /\
    Occur K (due_ (niterRestart c) n0) (fun k s t d => ERestart St (animateRestart c) false (n0 + Z.of_nat k) t s) R1 /\
    ((K = 0%nat \/ ~ stops K) /\ R2 = [] \/ (1 <= K)%nat /\ stops K /\ exists s t d, after dtOf step s0 t0 d0 K s t d /\ R2 = [ERestart St true true 99999999 t s]).
Proof.
  intros H. destruct (simulate_history c rank s0 n0 t0 d0 H) as (m & K & E & HK & L). exists m, K.
  exists (flat_map (fun k => if due n0 (niterRestart c) k then [ERestart St (animateRestart c) false (n0 + Z.of_nat k) (tA dtOf step s0 t0 d0 k) (sA dtOf step s0 t0 d0 k)] else []) (seq 1 K)).
  exists (if (1 <=? K)%nat && stop dtOf step nans c n0 s0 t0 d0 K then [ERestart St true true 99999999 (tA dtOf step s0 t0 d0 K) (sA dtOf step s0 t0 d0 K)] else []).
  split; [exact E|]. split; [rewrite HK; apply run_length|]. split; [|split].
  - rewrite L, filter_app, filter_flat_map. cbn [filter isRestart]. rewrite app_nil_r.
    rewrite (flat_map_ext_in _ (fun k => (if due n0 (niterRestart c) k then [ERestart St (animateRestart c) false (nA n0 k) (tA dtOf step s0 t0 d0 k) (sA dtOf step s0 t0 d0 k)] else []) ++
        (if stop dtOf step nans c n0 s0 t0 d0 k then [ERestart St true true 99999999 (tA dtOf step s0 t0 d0 k) (sA dtOf step s0 t0 d0 k)] else []))) by (intros; kinds; reflexivity).
    destruct K as [|K]; [reflexivity|]. rewrite seq_S. rewrite !flat_map_app. cbn [flat_map plus]. rewrite !app_nil_r. change (1 <=? S K)%nat with true. cbn [andb].
    unfold nA. rewrite <- app_assoc. f_equal. apply flat_map_ext_in. intros i Hi.
    assert (Hs : stop dtOf step nans c n0 s0 t0 d0 i = false).
    { destruct (stop dtOf step nans c n0 s0 t0 d0 i) eqn:Es; [|reflexivity]. exfalso. apply in_seq in Hi. assert (i = S K) by (eapply stop_last; [exact HK | apply in_seq; lia | exact Es]). lia. }
    rewrite Hs. apply app_nil_r.
  - apply (occur_filter s0 t0 d0 K (due n0 (niterRestart c)) (due_ (niterRestart c) n0) (fun k s t d => ERestart St (animateRestart c) false (n0 + Z.of_nat k) t s)).
    intros k _. apply due_div. apply H.
  - destruct K as [|K]; [left; split; [now left | reflexivity]|]. change (1 <=? S K)%nat with true. cbn [andb].
    destruct (stop dtOf step nans c n0 s0 t0 d0 (S K)) eqn:Es.
    + right. split; [lia|]. split; [now apply (stop_spec dtOf step nans c n0 s0 t0 d0)|]. exists (sA dtOf step s0 t0 d0 (S K)), (tA dtOf step s0 t0 d0 (S K)), (dA dtOf step s0 t0 d0 (S K)). split; [apply hist_after | reflexivity].
    + left. split; [right|reflexivity]. intros X. apply (stop_spec dtOf step nans c n0 s0 t0 d0) in X. congruence.
Qed.
(** C80: archives and the extra arrays, prints (numbered before the step, on rank 0 only), NaN checks, and one call of the coprocessor per step except the one that stops the run *)
Theorem C80_archives : sane c rank ->
  exists m K, simulate St dtOf step nans c rank start = Finished St m /\ Len K /\
    Occur K (due_ (niterArchive c) n0) (fun k s t d => EArchive St (n0 + Z.of_nat k) t s) (filter isArchive (history m)) /\
    (forall v, NoDup (extraVars c) -> In v (extraVars c) -> Occur K (due_ (niterArchive c) n0) (fun k s t d => EExtra St v (n0 + Z.of_nat k) t s) (filter (isExtra v) (history m))).
Proof.
  intros H. destruct (simulate_history c rank s0 n0 t0 d0 H) as (m & K & E & HK & L). exists m, K. split; [exact E|]. split; [rewrite HK; apply run_length|].
  assert (D : forall k, (1 <= k <= K)%nat -> (due n0 (niterArchive c) k = true <-> due_ (niterArchive c) n0 k)) by (intros k _; apply due_div; apply H).
  split.
  - rewrite L, filter_app, filter_flat_map. cbn [filter isArchive]. rewrite app_nil_r.
    erewrite flat_map_ext_in; [apply (occur_filter s0 t0 d0 K (due n0 (niterArchive c)) _ (fun k s t d => EArchive St (n0 + Z.of_nat k) t s)); exact D|].
    intros; cbv beta; kinds; reflexivity.
  - intros v ND IN. rewrite L, filter_app, filter_flat_map. cbn [filter isExtra]. rewrite app_nil_r.
    erewrite flat_map_ext_in; [apply (occur_filter s0 t0 d0 K (due n0 (niterArchive c)) _ (fun k s t d => EExtra St v (n0 + Z.of_nat k) t s)); exact D|].
    intros k _. cbv beta. assert (X : forall n t s, filter (isExtra v) (map (fun v => EExtra St v n t s) (extraVars c)) = [EExtra St v n t s]).
    { intros n t s. clear - ND IN. induction (extraVars c) as [|w l IH]; [destruct IN|]. cbn [map filter isExtra]. inversion ND; subst.
      destruct (String.eqb v w) eqn:Ev.
      - apply String.eqb_eq in Ev. subst w. f_equal. assert (G : forall u, In u l -> String.eqb v u = false) by (intros u Hu; apply String.eqb_neq; congruence).
        clear - G. induction l as [|u l IH]; [reflexivity|]. cbn [map filter isExtra]. rewrite G by now left. apply IH. intros; apply G; now right.
      - apply IH; [assumption|]. destruct IN as [->|]; [apply String.eqb_neq in Ev; congruence | assumption]. }
    unfold evs, ePrint, eStep, eRest, eArch, eChk, eEnd; rewrite !filter_app.
    repeat match goal with |- context [if ?b then _ else _] => destruct b; cbn [filter isExtra app]; rewrite ?X; cbn [app] end; reflexivity.
Qed.
Theorem C80_prints : sane c rank ->
  exists m K, simulate St dtOf step nans c rank start = Finished St m /\ Len K /\
    exists ks, lists K (fun k => rank = 0 /\ (niterPrint c | n0 + Z.of_nat k - 1)) ks /\
      Forall2 (fun k e => exists j s t d, k = S j /\ after dtOf step s0 t0 d0 j s t d /\ e = EPrint St (n0 + Z.of_nat j) t (dtOf d s)) ks (filter isPrint (history m)).
Proof.
  intros H. destruct (simulate_history c rank s0 n0 t0 d0 H) as (m & K & E & HK & L). exists m, K. split; [exact E|]. split; [rewrite HK; apply run_length|].
  rewrite L, filter_app, filter_flat_map. cbn [filter isPrint]. rewrite app_nil_r.
  set (p := fun k => due n0 (niterPrint c) (pred k) && (rank =? 0)).
  exists (filter p (seq 1 K)). split.
  - apply lists_filter. intros k Hk. unfold p. rewrite andb_true_iff, Z.eqb_eq, due_div by apply H. unfold nA. replace (n0 + Z.of_nat (pred k)) with (n0 + Z.of_nat k - 1) by lia. tauto.
  - rewrite (flat_map_ext_in _ (fun k => if p k then [EPrint St (nA n0 (pred k)) (tA dtOf step s0 t0 d0 (pred k)) (dA dtOf step s0 t0 d0 k)] else [])) by (intros; unfold p; kinds; reflexivity).
    rewrite flat_map_filter. assert (X : forall k, In k (filter p (seq 1 K)) -> (1 <= k)%nat) by (intros k Hk; apply filter_In in Hk; destruct Hk as [Hk _]; apply in_seq in Hk; lia).
    revert X. generalize (filter p (seq 1 K)) as l. induction l as [|k l IH]; intros X; [constructor|]. cbn [map]. constructor; [|apply IH; intros; apply X; now right].
    assert (1 <= k)%nat by (apply X; now left). destruct k as [|j]; [lia|]. exists j, (sA dtOf step s0 t0 d0 j), (tA dtOf step s0 t0 d0 j), (dA dtOf step s0 t0 d0 j).
    split; [reflexivity|]. split; [apply hist_after|]. cbn [pred]. rewrite dA_S. reflexivity.
Qed.
Theorem C80_checks_and_coprocessing : sane c rank ->
  exists m K, simulate St dtOf step nans c rank start = Finished St m /\ Len K /\
    Occur K (fun k => checked (checkNan c) (n0 + Z.of_nat k)) (fun k s t d => ECheck St (n0 + Z.of_nat k) s) (filter isCheck (history m)) /\
    Occur K (fun k => ~ stops k) (fun k s t d => ECoproc St (n0 + Z.of_nat k) t s) (filter isCoproc (history m)).
Proof.
  intros H. destruct (simulate_history c rank s0 n0 t0 d0 H) as (m & K & E & HK & L). exists m, K. split; [exact E|]. split; [rewrite HK; apply run_length|].
  rewrite L, !filter_app, !filter_flat_map. cbn [filter isCheck isCoproc]. rewrite !app_nil_r. split.
  - erewrite flat_map_ext_in; [apply (occur_filter s0 t0 d0 K (chk c n0) _ (fun k s t d => ECheck St (n0 + Z.of_nat k) s))|intros; cbv beta; kinds; reflexivity].
    intros k _. unfold chk, checked. rewrite andb_true_iff, negb_true_iff, Z.eqb_neq. split; intros [A B]; (split; [exact A | apply (due_div n0 _ k A); exact B]).
  - erewrite flat_map_ext_in; [apply (occur_filter s0 t0 d0 K (fun k => negb (stop dtOf step nans c n0 s0 t0 d0 k)) _ (fun k s t d => ECoproc St (n0 + Z.of_nat k) t s))|].
    + intros k _. rewrite negb_true_iff. rewrite <- (stop_spec dtOf step nans c n0 s0 t0 d0). destruct (stop dtOf step nans c n0 s0 t0 d0 k); split; congruence.
    + intros k _. cbv beta. unfold evs, ePrint, eStep, eRest, eArch, eChk, eEnd; rewrite !filter_app. destruct (stop dtOf step nans c n0 s0 t0 d0 k); cbn [negb];
      repeat match goal with |- context [if ?b then _ else _] => destruct b; cbn [filter isCoproc app]; try rewrite !filter_extras by reflexivity; cbn [app] end; reflexivity.
Qed.
(** C80: all ranks go through the same steps, files, checks and calls in the same order; only rank 0 prints *)
Theorem C80_ranks_agree rank' : sane c rank -> sane c rank' ->
  exists m m', simulate St dtOf step nans c rank start = Finished St m /\ simulate St dtOf step nans c rank' start = Finished St m' /\
    filter (fun e => negb (isPrint e)) (history m) = filter (fun e => negb (isPrint e)) (history m').
Proof.
  intros H H'. destruct (simulate_history c rank s0 n0 t0 d0 H) as (m & K & E & HK & L). destruct (simulate_history c rank' s0 n0 t0 d0 H') as (m' & K' & E' & HK' & L').
  exists m, m'. split; [exact E|]. split; [exact E'|]. rewrite L, L', !filter_app, !filter_flat_map, HK', <- HK. f_equal. apply flat_map_ext_in. intros k _.
  unfold evs. rewrite !filter_app. f_equal. unfold ePrint. destruct (due n0 (niterPrint c) (pred k)); destruct (rank =? 0); destruct (rank' =? 0); reflexivity.
Qed.
(** a zero interval is not a way to switch an output off, and zero iterations is not a way to run none: both raise ZeroDivisionError *)
Theorem C80_zero_raises : (niter c > 0 -> niterRestart c = 0 \/ niterArchive c = 0 \/ niterPrint c = 0 -> exists m, simulate St dtOf step nans c rank start = ZeroDivision St m) /\
  (niter c = 0 -> rank = 0 -> exists m, simulate St dtOf step nans c rank start = ZeroDivision St m).
Proof.
  split.
  - intros Hn HZ. unfold simulate. destruct (Z.to_nat (niter c)) as [|k] eqn:E; [lia|]. cbn [loop]. unfold advance. destruct (niterPrint c =? 0) eqn:E1; [eexists; reflexivity|]. cbv zeta.
    match goal with |- context [restart St c ?m] => generalize m end. intros m1. unfold restart. destruct (niterRestart c =? 0) eqn:E2; [eexists; reflexivity|].
    match goal with |- context [archive St c ?m] => generalize m end. intros m2. unfold archive. destruct (niterArchive c =? 0) eqn:E3; [eexists; reflexivity|].
    apply Z.eqb_neq in E1, E2, E3. lia.
  - intros Hn Hr. unfold simulate. rewrite Hn, Hr. cbn [Z.to_nat loop]. cbv zeta. cbn [andb Z.eqb]. eexists. reflexivity.
Qed.
End P.

(** a concrete run: five steps asked for, restarts every 2, check every 3, the state goes bad at step 3 *)
Definition exCfg : rcfg := mkRC 5 2 1000 1 3 false false ["rhs"%string].
Example C80_example : sane exCfg 0 /\
  stopsAt (fun d _ => d) (fun _ s => s + 1) (fun s => if s >=? 3 then 1 else 0) 3 0 0 0%R 0%R 3 /\ ~ stopsAt (fun d _ => d) (fun _ s => s + 1) (fun s => if s >=? 3 then 1 else 0) 3 0 0 0%R 0%R 2.
Proof.
  split; [repeat split; cbn; try lia; right; lia|]. split.
  - split; [split; [lia | exists 1; reflexivity]|]. exists 3, (0 + 0 + 0 + 0)%R, 0%R. split; [|reflexivity]. 
    exact (afterS _ (fun d _ => d) (fun _ s => s + 1) 0 0%R 0%R 2 2 _ 0%R (afterS _ (fun d _ => d) (fun _ s => s + 1) 0 0%R 0%R 1 1 _ 0%R (afterS _ (fun d _ => d) (fun _ s => s + 1) 0 0%R 0%R 0 0 _ 0%R (after0 _ _ _ _ _ _)))).
  - intros [[_ [z Hz]] _]. lia.
Qed.
Print Assumptions C80_steps. Print Assumptions C80_restarts. Print Assumptions C80_archives. Print Assumptions C80_prints. Print Assumptions C80_checks_and_coprocessing. Print Assumptions C80_ranks_agree. Print Assumptions C80_zero_raises. Print Assumptions C80_all_steps.
