(** C113: what a run leaves in the restart directory. *)
From Coq Require Import Reals ZArith NArith List Bool String Ascii Lia.
From Verif Require Import M_Procs S_Procs M_Io L_Io L_Procs P_Procs M_Run S_Run L_Run P_Run.
Import ListNotations.
Open Scope Z_scope.

Lemma some_inj_ {A} (a b : A) : Some a = Some b -> a = b. Proof. congruence. Qed.
(* file names *)
Lemma padded_plain w n x : In x (padded w n) -> isDigit x.
Proof. unfold padded. intros H. apply in_app_or in H. destruct H as [H | H]; [apply repeat_spec in H; subst x; unfold isDigit; cbn; lia | exact (printN_digits n x H)]. Qed.
Lemma dot_not_digit : ~ isDigit "."%char. Proof. unfold isDigit. cbn. lia. Qed.
Lemma split_dot : forall (a b r s : list ascii), (forall x, In x a -> isDigit x) -> (forall x, In x b -> isDigit x) -> a ++ "."%char :: r = b ++ "."%char :: s -> a = b /\ r = s.
Proof.
  induction a as [|x a IH]; intros [|y b] r s Ha Hb H; cbn [app] in H.
  - split; [reflexivity | congruence].
  - exfalso. apply dot_not_digit. apply Hb. left. congruence.
  - exfalso. apply dot_not_digit. apply Ha. left. congruence.
  - assert (x = y) as <- by congruence. assert (Q : a ++ "."%char :: r = b ++ "."%char :: s) by congruence.
    destruct (IH b r s) as [-> ->]; [intros z Hz; apply Ha; now right | intros z Hz; apply Hb; now right | exact Q |]. split; reflexivity.
Qed.
Lemma padded_nonempty w n : exists x r, padded w n = x :: r /\ isDigit x.
Proof.
  assert (N : padded w n <> []). { unfold padded. intros H. apply app_eq_nil in H. destruct H as [_ H]. exact (printN_nonempty n H). }
  destruct (padded w n) as [|x r] eqn:E; [congruence|]. exists x, r. split; [reflexivity|]. apply (padded_plain w n). rewrite E. now left.
Qed.
(** distinct restarts have distinct names, and an animated name is never a plain one *)
Lemma name_inj lump n m b b' : varFileName lump true n b = varFileName lump true m b' -> n = m.
Proof.
  unfold varFileName. destruct lump; intros H; apply app_inv_head in H; cbn [t list_ascii_of_string app] in H;
    (apply split_dot in H; [| apply padded_plain | apply padded_plain]; destruct H as [H _]; exact (padded_inj 8 _ _ H)).
Qed.
Lemma name_block an n m b b' : varFileName false an n b = varFileName false an m b' -> b = b'.
Proof.
  unfold varFileName. destruct an; intros H; apply app_inv_head in H; cbn [t list_ascii_of_string app] in H.
  - apply split_dot in H; [| apply padded_plain | apply padded_plain]. destruct H as [_ H]. apply split_dot in H; [| apply padded_plain | apply padded_plain]. destruct H as [H _]. exact (padded_inj 6 _ _ H).
  - apply split_dot in H; [| apply padded_plain | apply padded_plain]. destruct H as [H _]. exact (padded_inj 6 _ _ H).
Qed.
Lemma name_kind lump n m b b' : varFileName lump true n b <> varFileName lump false m b'.
Proof.
  unfold varFileName. destruct lump; intros H; apply (app_inv_head (t "q.") _ _) in H || idtac.
  - destruct (padded_nonempty 8 n) as (x & r & E & D). rewrite E in H. cbn [t list_ascii_of_string app] in H.
    assert (x = "h"%char) as -> by congruence. unfold isDigit in D. cbn in D. lia.
  - cbn [t list_ascii_of_string app] in H. apply split_dot in H; [| apply padded_plain | apply padded_plain]. destruct H as [_ H].
    destruct (padded_nonempty 6 b) as (x & r & E & D). rewrite E in H. cbn [app] in H. assert (x = "h"%char) as -> by congruence. unfold isDigit in D. cbn in D. lia.
Qed.
Lemma name_plain lump n m b : varFileName lump false n b = varFileName lump false m b. Proof. destruct lump; reflexivity. Qed.

Section P.
Context {St : Type} (dtOf : R -> St -> R) (step : R -> St -> St) (nans : St -> Z).
Definition evName (lump : bool) (e : event St) (b : N) : option text := match e with ERestart _ an _ n _ _ => Some (varFileName lump an (Z.to_N n) b) | _ => None end.
Definition snapOf (lump : bool) (e : event St) (b : N) : option (snap St) :=
  match e with ERestart _ _ sg n t s => Some (mkSnap St s n t sg (if lump then None else Some b)) | _ => None end.
Lemma write_same lump blocks d e b nm : (lump = true \/ In b blocks) -> evName lump e b = Some nm -> assoc (writeSnap St lump blocks d e) nm = snapOf lump e b.
Proof.
  destruct e as [| | an sg n t s | | | | | | |]; cbn [evName]; intros Hb H; try discriminate. assert (nm = varFileName lump an (Z.to_N n) b) as -> by congruence. cbn [writeSnap snapOf]. destruct lump.
  - apply assoc_assign_same.
  - destruct Hb as [Hb | Hb]; [discriminate|]. clear H. revert d. induction blocks as [|b' l IH]; intros d; [destruct Hb|]. cbn [fold_left].
    destruct (in_dec N.eq_dec b l) as [I | I]; [now apply IH|]. assert (b' = b) as -> by (destruct Hb; [assumption | contradiction]). clear IH Hb.
    assert (G : forall l d, ~ In b l -> assoc (fold_left (fun d b => assign d (varFileName false an (Z.to_N n) b) (mkSnap St s n t sg (Some b))) l d) (varFileName false an (Z.to_N n) b) = assoc d (varFileName false an (Z.to_N n) b)).
    { clear. induction l as [|x l IH]; intros d I; [reflexivity|]. cbn [fold_left]. rewrite IH by (intros Q; apply I; now right). apply assoc_assign_other. intros Q. apply I. left. symmetry. exact (name_block _ _ _ _ _ Q). }
    rewrite G by exact I. apply assoc_assign_same.
Qed.
Lemma write_other lump blocks d e nm : (forall b, evName lump e b <> Some nm) -> assoc (writeSnap St lump blocks d e) nm = assoc d nm.
Proof.
  destruct e as [| | an sg n t s | | | | | | |]; cbn [evName writeSnap]; intros H; try reflexivity. destruct lump.
  - apply assoc_assign_other. intros ->. now apply (H 0%N).
  - revert d. induction blocks as [|x l IH]; intros d; [reflexivity|]. cbn [fold_left]. rewrite IH. apply assoc_assign_other. intros ->. now apply (H x).
Qed.
Lemma fold_other lump blocks es : forall d nm, (forall e b, In e es -> evName lump e b <> Some nm) -> assoc (fold_left (writeSnap St lump blocks) es d) nm = assoc d nm.
Proof. induction es as [|e es IH]; intros d nm H; [reflexivity|]. cbn [fold_left]. rewrite IH by (intros; apply H; now right). apply write_other. intros b. apply H. now left. Qed.
Lemma fold_restarts lump blocks es : forall d, fold_left (writeSnap St lump blocks) es d = fold_left (writeSnap St lump blocks) (filter isRestart es) d.
Proof. induction es as [|e es IH]; intros d; [reflexivity|]. destruct e; cbn [fold_left filter isRestart writeSnap]; apply IH. Qed.
Lemma fold_last lump blocks es1 e es2 d b nm : (lump = true \/ In b blocks) -> evName lump e b = Some nm -> (forall e' b', In e' es2 -> evName lump e' b' <> Some nm) ->
  assoc (fold_left (writeSnap St lump blocks) (es1 ++ e :: es2) d) nm = snapOf lump e b.
Proof. intros Hb Hn Ho. rewrite fold_left_app. cbn [fold_left]. rewrite fold_other by exact Ho. now apply write_same. Qed.

Lemma ascending_lt l x : ascending (x :: l) -> forall y, In y l -> (x < y)%nat.
Proof. revert x. induction l as [|z l IH]; intros x H y Hy; [destruct Hy|]. inversion H; subst. destruct Hy as [->|Hy]; [assumption|]. enough (z < y)%nat by lia. now apply IH. Qed.
Lemma ascending_split l1 x l2 : ascending (l1 ++ x :: l2) -> forall y, In y l2 -> (x < y)%nat.
Proof. induction l1 as [|z l1 IH]; cbn [app]; intros H; [now apply ascending_lt|]. apply IH. inversion H; subst; [destruct l1; discriminate | assumption]. Qed.
Lemma Forall2_split {A B} (P : A -> B -> Prop) l1 x l2 es : Forall2 P (l1 ++ x :: l2) es -> exists e1 e e2, es = e1 ++ e :: e2 /\ P x e /\ Forall2 P l2 e2.
Proof. intros H. apply Forall2_app_inv_l in H. destruct H as (a & b & _ & H & ->). inversion H; subst. now exists a, y, l'. Qed.
Lemma Forall2_in_r {A B} (P : A -> B -> Prop) l es e : Forall2 P l es -> In e es -> exists x, In x l /\ P x e.
Proof. induction 1 as [|x y l es Hxy H IH]; intros I; [destruct I|]. destruct I as [->|I]; [exists x; split; [now left | assumption]|]. destruct (IH I) as (z & Hz & Pz). exists z. split; [now right | assumption]. Qed.

Variables (c : rcfg) (rank n0 : Z) (s0 : St) (t0 d0 : R) (blocks : list N) (lump : bool).
Notation start := (booted St c s0 n0 t0 d0).
Notation Len K := (runLength dtOf step nans (checkNan c) n0 s0 t0 d0 (Z.to_nat (niter c)) K).
Notation stops K := (stopsAt dtOf step nans (checkNan c) n0 s0 t0 d0 K).
Notation After := (after dtOf step s0 t0 d0).
Definition blockOf (b : N) : option N := if lump then None else Some b.

Lemma after_det k s t d s' t' d' : After k s t d -> After k s' t' d' -> s = s' /\ t = t' /\ d = d'.
Proof. intros A B. destruct (after_fun _ _ _ _ _ _ _ _ _ A) as (-> & -> & ->). destruct (after_fun _ _ _ _ _ _ _ _ _ B) as (-> & -> & ->). repeat split. Qed.
Lemma restart_file k s t d old : sane c rank -> forall m K R1 R2,
  filter isRestart (history m) = R1 ++ R2 -> occur dtOf step s0 t0 d0 K (due_ (niterRestart c) n0) (fun k s t d => ERestart St (animateRestart c) false (n0 + Z.of_nat k) t s) R1 ->
  forall b, (lump = true \/ In b blocks) -> (1 <= k <= K)%nat -> (niterRestart c | n0 + Z.of_nat k) -> After k s t d ->
  (forall j b', (k < j <= K)%nat -> (niterRestart c | n0 + Z.of_nat j) -> varFileName lump (animateRestart c) (Z.to_N (n0 + Z.of_nat j)) b' <> varFileName lump (animateRestart c) (Z.to_N (n0 + Z.of_nat k)) b) ->
  (forall e b', In e R2 -> evName lump e b' <> Some (varFileName lump (animateRestart c) (Z.to_N (n0 + Z.of_nat k)) b)) ->
  assoc (restartDir St lump blocks (log St m) old) (varFileName lump (animateRestart c) (Z.to_N (n0 + Z.of_nat k)) b) = Some (mkSnap St s (n0 + Z.of_nat k) t false (blockOf b)).
Proof.
  intros H m K R1 R2 ER (ks & [Asc In_] & F) b Hb Hk Hd Ha Ho1 Ho2. unfold restartDir. change (rev (log St m)) with (history m). rewrite fold_restarts, ER.
  assert (Ik : In k ks) by (apply In_; split; [exact Hk | exact Hd]). apply in_split in Ik. destruct Ik as (l1 & l2 & ->).
  assert (In2 : forall y, In y l2 -> (k < y <= K)%nat /\ (niterRestart c | n0 + Z.of_nat y)).
  { intros y Hy. assert (k < y)%nat by now apply (ascending_split l1 k l2 Asc). destruct (proj1 (In_ y)) as [X Y]; [apply in_or_app; right; now right|]. split; [lia | exact Y]. }
  destruct (Forall2_split _ _ _ _ _ F) as (e1 & e & e2 & -> & (s' & t' & d' & Ha' & ->) & F2). destruct (after_det _ _ _ _ _ _ _ Ha Ha') as (<- & <- & _).
  rewrite <- app_assoc. cbn [app].
  change (Some (mkSnap St s (n0 + Z.of_nat k) t false (blockOf b))) with (snapOf lump (ERestart St (animateRestart c) false (n0 + Z.of_nat k) t s) b).
  apply fold_last; [exact Hb | reflexivity|]. intros e' b' I. apply in_app_or in I. destruct I as [I | I]; [|now apply Ho2].
  destruct (Forall2_in_r _ _ _ _ F2 I) as (j & Ij & (sj & tj & dj & _ & ->)). cbn [evName]. intros Q. destruct (In2 j Ij) as [Lj Dj]. apply (Ho1 j b' Lj Dj). congruence.
Qed.
(** C113: with animated restarts every scheduled restart survives the run, also one that is stopped: under the name the reader asks for, the state, number and time of that step *)
Theorem C113_animated old : sane c rank -> animateRestart c = true -> 0 <= n0 ->
  exists m K, simulate St dtOf step nans c rank start = Finished St m /\ Len K /\
    forall k s t d b, (lump = true \/ In b blocks) -> (1 <= k <= K)%nat -> (niterRestart c | n0 + Z.of_nat k) -> n0 + Z.of_nat k <> 99999999 -> After k s t d ->
      assoc (restartDir St lump blocks (log St m) old) (varFileName lump true (Z.to_N (n0 + Z.of_nat k)) b) = Some (mkSnap St s (n0 + Z.of_nat k) t false (blockOf b)).
Proof.
  intros H Ha Hn. destruct (C80_restarts dtOf step nans c rank n0 s0 t0 d0 H) as (m & K & R1 & R2 & E & L & ER & Oc & H2). exists m, K. split; [exact E|]. split; [exact L|].
  intros k s t d b Hb Hk Hd Hne Af. assert (X := restart_file k s t d old H m K R1 R2 ER Oc b Hb Hk Hd Af). rewrite Ha in X. apply X; clear X.
  - intros j b' Hj _ Q. apply name_inj in Q. lia.
  - intros e b' I Q. destruct H2 as [[_ ->] | (_ & _ & s' & t' & d' & _ & ->)]; [destruct I|]. destruct I as [<- | []]. cbn [evName] in Q. assert (Q2 := some_inj_ _ _ Q). apply name_inj in Q2. lia.
Qed.
(** C113: otherwise the one restart is the last one scheduled *)
Theorem C113_latest old : sane c rank -> animateRestart c = false ->
  exists m K, simulate St dtOf step nans c rank start = Finished St m /\ Len K /\
    forall k s t d b n, (lump = true \/ In b blocks) -> (1 <= k <= K)%nat -> (niterRestart c | n0 + Z.of_nat k) -> (forall j, (k < j <= K)%nat -> ~ (niterRestart c | n0 + Z.of_nat j)) -> After k s t d ->
      assoc (restartDir St lump blocks (log St m) old) (varFileName lump false n b) = Some (mkSnap St s (n0 + Z.of_nat k) t false (blockOf b)).
Proof.
  intros H Ha. destruct (C80_restarts dtOf step nans c rank n0 s0 t0 d0 H) as (m & K & R1 & R2 & E & L & ER & Oc & H2). exists m, K. split; [exact E|]. split; [exact L|].
  intros k s t d b n Hb Hk Hd Hlast Af. assert (X := restart_file k s t d old H m K R1 R2 ER Oc b Hb Hk Hd Af). rewrite Ha in X. rewrite (name_plain lump n (Z.to_N (n0 + Z.of_nat k)) b). apply X; clear X.
  - intros j b' Hj Dj _. exact (Hlast j Hj Dj).
  - intros e b' I Q. destruct H2 as [[_ ->] | (_ & _ & s' & t' & d' & _ & ->)]; [destruct I|]. destruct I as [<- | []]. cbn [evName] in Q. assert (Q2 := some_inj_ _ _ Q). exact (name_kind _ _ _ _ _ Q2).
Qed.
(** C113: a run that stops itself leaves the state it stopped with, in single precision, as number 99999999 *)
Theorem C113_emergency old : sane c rank ->
  exists m K, simulate St dtOf step nans c rank start = Finished St m /\ Len K /\
    ((1 <= K)%nat -> stops K -> forall s t d b, (lump = true \/ In b blocks) -> After K s t d ->
      assoc (restartDir St lump blocks (log St m) old) (varFileName lump true 99999999 b) = Some (mkSnap St s 99999999 t true (blockOf b))).
Proof.
  intros H. destruct (C80_restarts dtOf step nans c rank n0 s0 t0 d0 H) as (m & K & R1 & R2 & E & L & ER & Oc & H2). exists m, K. split; [exact E|]. split; [exact L|].
  intros K1 HS s t d b Hb Af. destruct H2 as [[[X | X] _] | (_ & _ & s' & t' & d' & Af' & ->)]; [lia | contradiction|]. destruct (after_det _ _ _ _ _ _ _ Af Af') as (<- & <- & _).
  unfold restartDir. change (rev (log St m)) with (history m). rewrite fold_restarts, ER.
  change (Some (mkSnap St s 99999999 t true (blockOf b))) with (snapOf lump (ERestart St true true 99999999 t s) b).
  apply (fold_last lump blocks R1 _ [] old b); [exact Hb | reflexivity | intros e' b' []].
Qed.
End P.

(** C113 refuted in general: with the default single restart file, a run whose check is due at the same step as a restart overwrites the last good restart with the state that fails the check:
    the restart is written first.  The state before (step 2) was good and had been written. *)
Definition nanCfg : rcfg := mkRC 5 2 1000 1 4 false false [].
Theorem C113_good_restart_lost_refuted :
  ~ (forall (c : rcfg) (nans : Z -> Z) (s0 : Z) (k : nat), sane c 0 ->
       exists m K, simulate Z (fun d _ => d) (fun _ s => s + 1) nans c 0 (booted Z c s0 0 0%R 0%R) = Finished Z m /\
         runLength (fun d _ => d) (fun _ s => s + 1) nans (checkNan c) 0 s0 0%R 0%R (Z.to_nat (niter c)) K /\
         ((1 <= k <= K)%nat -> (niterRestart c | Z.of_nat k) -> (forall s t d, after (fun d _ => d) (fun _ s => s + 1) s0 0%R 0%R k s t d -> nans s = 0) ->
          exists name sn, assoc (restartDir Z true [] (log Z m) []) name = Some sn /\ nans (sn_state Z sn) = 0)).
Proof.
  intros P. set (bad := fun s : Z => if s >=? 4 then 1 else 0). specialize (P nanCfg bad 0 2%nat). destruct P as (m & K & E & L & X); [repeat split; cbn; try lia; right; lia|].
  assert (A4 : after (fun d _ => d) (fun _ s => s + 1) 0 0%R 0%R 4 4 (0 + 0 + 0 + 0 + 0)%R 0%R).
  { exact (afterS _ (fun d _ => d) (fun _ s => s + 1) 0 0%R 0%R 3 3 _ 0%R (afterS _ (fun d _ => d) (fun _ s => s + 1) 0 0%R 0%R 2 2 _ 0%R (afterS _ (fun d _ => d) (fun _ s => s + 1) 0 0%R 0%R 1 1 _ 0%R (afterS _ (fun d _ => d) (fun _ s => s + 1) 0 0%R 0%R 0 0 _ 0%R (after0 _ _ _ _ _ _))))). }
  assert (S4 : stopsAt (fun d _ => d) (fun _ s => s + 1) bad 4 0 0 0%R 0%R 4) by (split; [split; [lia | exists 1; reflexivity]|]; exists 4, (0 + 0 + 0 + 0 + 0)%R, 0%R; split; [exact A4 | reflexivity]).
  assert (K4 : K = 4%nat).
  { destruct L as (L1 & L2 & L3). change (Z.to_nat (niter nanCfg)) with 5%nat in *. change (checkNan nanCfg) with 4 in *. destruct L3 as [-> | [L3 [[_ [z Hz]] _]]]; [exfalso; apply (L2 4%nat); [lia | exact S4]|]. lia. }
  destruct X as (name & sn & Hn & Hg).
  - rewrite K4. lia.
  - exists 1. reflexivity.
  - intros s t d A. inversion A as [|k1 s1 t1 d1 A1 Q1 Q2 Q3 Q4]; subst. inversion A1 as [|k2 s2 t2 d2 A2 Q5 Q6 Q7 Q8]; subst. inversion A2; subst. reflexivity.
  - (* every snapshot written is the state after step 2, 4: the one after step 2 has been replaced *)
    destruct (C80_restarts (fun d _ => d) (fun _ s => s + 1) bad nanCfg 0 0 0 0%R 0%R) as (m' & K' & R1 & R2 & E' & L' & ER & (ks & [Asc In_] & F) & H2); [repeat split; cbn; try lia; right; lia|].
    rewrite E in E'. assert (m = m') as <- by congruence. clear E'.
    assert (K' = 4%nat) as ->.
    { destruct L' as (L1 & L2 & L3). change (Z.to_nat (niter nanCfg)) with 5%nat in *. change (checkNan nanCfg) with 4 in *. destruct L3 as [-> | [L3 [[_ [z Hz]] _]]]; [exfalso; apply (L2 4%nat); [lia | exact S4]|]. lia. }
    unfold restartDir in Hn. change (rev (log Z m)) with (history m) in Hn. rewrite fold_restarts, ER in Hn.
    assert (Dir : forall R2', (R2' = [] \/ exists t, R2' = [ERestart Z true true 99999999 t 4]) -> forall sn, assoc (fold_left (writeSnap Z true []) (R1 ++ R2') []) name = Some sn -> sn_state Z sn = 4).
    { assert (ks = [2%nat; 4%nat]) as ->.
      { assert (D : forall k, (1 <= k <= 4)%nat -> due_ (niterRestart nanCfg) 0 k <-> (k = 2%nat \/ k = 4%nat)).
        { intros k Hk. unfold due_. change (niterRestart nanCfg) with 2. split; [intros [z Hz]; lia | intros [-> | ->]; [exists 1 | exists 2]; reflexivity]. }
        assert (I2 : forall k, In k ks <-> k = 2%nat \/ k = 4%nat) by (intros k; rewrite In_; split; [intros [A B]; now apply D | intros A; split; [lia | apply D; [lia | exact A]]]).
        destruct ks as [|a ks]; [exfalso; apply (proj2 (I2 2%nat)); now left|]. destruct ks as [|b ks]; [exfalso; destruct (proj2 (I2 2%nat)) as [?|[]]; [now left|]; destruct (proj2 (I2 4%nat)) as [?|[]]; [now right|]; lia|].
        assert (AA := ascending_lt _ _ Asc). assert (a < b)%nat by (apply AA; now left). assert (Ha := proj1 (I2 a) (or_introl eq_refl)). assert (Hb := proj1 (I2 b) (or_intror (or_introl eq_refl))).
        assert (a = 2%nat) by lia. assert (b = 4%nat) by lia. subst a b. destruct ks as [|x ks]; [reflexivity|]. exfalso. inversion Asc as [| |? ? ? _ Asc2]; subst. assert (4 < x)%nat by (apply (ascending_lt _ _ Asc2); now left).
        assert (Hx := proj1 (I2 x)). destruct Hx as [?|?]; [right; right; now left | lia | lia]. }
      inversion F as [|? e1 ? l1 P1 F1]; subst. inversion F1 as [|? e2 ? l2 P2 F2]; subst. inversion F2; subst. destruct P1 as (s1 & t1 & d1 & _ & ->). destruct P2 as (s2 & t2 & d2 & B2 & ->).
      assert (s2 = 4) as -> by (inversion B2 as [|? ? ? ? B3]; subst; inversion B3 as [|? ? ? ? B4]; subst; inversion B4 as [|? ? ? ? B5]; subst; inversion B5 as [|? ? ? ? B6]; subst; inversion B6; subst; reflexivity).
      intros R2' HR sn'. destruct HR as [-> | [t ->]].
      - cbn [app fold_left writeSnap]. change (animateRestart nanCfg) with false. intros Q. change (varFileName true false _ 0) with (t "q.h5") in Q. cbn [assign] in Q. destruct (text_dec (M_Io.t "q.h5") (M_Io.t "q.h5")); [|congruence]. cbn [assoc] in Q. destruct (text_dec name (M_Io.t "q.h5")); [|discriminate]. apply some_inj_ in Q. subst sn'. reflexivity.
      - cbn [app fold_left writeSnap]. change (animateRestart nanCfg) with false. intros Q.
        destruct (text_dec name (varFileName true true (Z.to_N 99999999) 0)) as [-> | Ne]; [rewrite assoc_assign_same in Q; apply some_inj_ in Q; subst sn'; reflexivity|].
        rewrite assoc_assign_other in Q by exact Ne. unfold varFileName in Q. cbn [assign] in Q. destruct (text_dec (M_Io.t "q.h5") (M_Io.t "q.h5")); [|congruence]. cbn [assoc] in Q. destruct (text_dec name (M_Io.t "q.h5")); [|discriminate]. apply some_inj_ in Q. subst sn'. reflexivity. }
    assert (sn_state Z sn = 4) as S.
    { apply (Dir R2); [|exact Hn]. destruct H2 as [[_ ->] | (_ & _ & s & t & d & B & ->)]; [now left | right]. exists t.
      assert (s = 4) as -> by (inversion B as [|? ? ? ? B3]; subst; inversion B3 as [|? ? ? ? B4]; subst; inversion B4 as [|? ? ? ? B5]; subst; inversion B5 as [|? ? ? ? B6]; subst; inversion B6; subst; reflexivity). reflexivity. }
    rewrite S in Hg. unfold bad in Hg. cbn in Hg. discriminate.
Qed.
Print Assumptions C113_animated. Print Assumptions C113_latest. Print Assumptions C113_emergency. Print Assumptions C113_good_restart_lost_refuted.
