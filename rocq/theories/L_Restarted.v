(** Lemmas for restarted runs: the events after a restart are those of the original run. *)
From Coq Require Import Reals ZArith NArith List Bool String Ascii Lia.
From Verif Require Import M_Procs M_Io M_Run S_Run L_Run P_Run M_Restarted S_Restarted.
Import ListNotations.
Open Scope Z_scope.

Section L.
Context {St : Type} (dtOf : R -> St -> R) (step : R -> St -> St) (nans : St -> Z) (same : St -> St -> Prop).
Hypothesis steady : forall d s s', dtOf (dtOf d s) s' = dtOf d s'.
Hypothesis sameDt : forall d s s', same s s' -> dtOf d s = dtOf d s'.
Hypothesis sameStep : forall d s s', same s s' -> same (step d s) (step d s').
Hypothesis sameNans : forall s s', same s s' -> nans s = nans s'.
Variables (c c' : rcfg) (rank n0 : Z) (s0 s1 : St) (t0 d0 : R) (k : nat).
Hypothesis likeC : niterRestart c' = niterRestart c /\ niterArchive c' = niterArchive c /\ niterPrint c' = niterPrint c /\ checkNan c' = checkNan c /\ isDual c' = isDual c /\
  animateRestart c' = animateRestart c /\ extraVars c' = extraVars c.
Notation sA := (sA dtOf step). Notation tA := (tA dtOf step). Notation dA := (dA dtOf step).
Hypothesis back : same (sA s0 t0 d0 k) s1.
Let n1 := n0 + Z.of_nat k. Let t1 := tA s0 t0 d0 k.

Lemma dt_steady j s : dtOf (dA s0 t0 d0 j) s = dtOf d0 s.
Proof. destruct j as [|j]; [reflexivity|]. rewrite dA_S. revert s. induction j as [|j IH]; intros s; rewrite steady; [reflexivity|]. rewrite dA_S. apply IH. Qed.
Lemma dt_steady1 j s : dtOf (dA s1 t1 d0 j) s = dtOf d0 s.
Proof. destruct j as [|j]; [reflexivity|]. rewrite dA_S. revert s. induction j as [|j IH]; intros s; rewrite steady; [reflexivity|]. rewrite dA_S. apply IH. Qed.
Lemma shifted j : same (sA s0 t0 d0 (k + j)) (sA s1 t1 d0 j) /\ tA s0 t0 d0 (k + j) = tA s1 t1 d0 j /\ dA s0 t0 d0 (k + S j) = dA s1 t1 d0 (S j).
Proof.
  induction j as [|j (A & B & C)].
  - rewrite Nat.add_0_r. split; [exact back|]. split; [reflexivity|]. rewrite Nat.add_1_r, !dA_S, dt_steady. cbn. apply sameDt. exact back.
  - rewrite <- !plus_n_Sm. rewrite ?sA_S, ?tA_S, ?dA_S. rewrite ?sA_S, ?dA_S.
    assert (E : dtOf (dA s0 t0 d0 (k + j)) (sA s0 t0 d0 (k + j)) = dtOf (dA s1 t1 d0 j) (sA s1 t1 d0 j)) by (rewrite dt_steady, dt_steady1; apply sameDt; exact A).
    rewrite <- !E. split; [now apply sameStep|]. split; [now rewrite B|]. rewrite !steady. apply sameDt. now apply sameStep.
Qed.
Lemma numbers j : nA n0 (k + j) = nA n1 j. Proof. unfold nA, n1. lia. Qed.
Lemma due_shift i j : due n0 i (k + j) = due n1 i j. Proof. unfold due. now rewrite numbers. Qed.
Lemma stop_shift j : stop dtOf step nans c n0 s0 t0 d0 (k + j) = stop dtOf step nans c' n1 s1 t1 d0 j.
Proof.
  destruct likeC as (_ & _ & _ & E & _). unfold stop, chk. rewrite E, due_shift. destruct (shifted j) as (A & _). now rewrite (sameNans _ _ A).
Qed.
Lemma len_shift m : forall j, len dtOf step nans c n0 s0 t0 d0 (k + j) m = len dtOf step nans c' n1 s1 t1 d0 j m.
Proof. induction m as [|m IH]; intros j; [reflexivity|]. cbn [len]. rewrite plus_n_Sm, stop_shift, IH. reflexivity. Qed.
Lemma evs_shift j : (1 <= j)%nat -> Forall2 (sameEvent same) (evs dtOf step nans c rank n0 s0 t0 d0 (k + j)) (evs dtOf step nans c' rank n1 s1 t1 d0 j).
Proof.
  intros Hj. destruct j as [|j]; [lia|]. destruct (shifted (S j)) as (A & B & _). destruct (shifted j) as (_ & B' & C). destruct likeC as (E1 & E2 & E3 & E4 & E5 & E6 & E7).
  unfold evs, ePrint, eStep, eRest, eArch, eChk, eEnd. unfold chk. rewrite E1, E2, E3, E4, E5, E6, E7, !due_shift, !stop_shift.
  replace (pred (k + S j)) with (k + j)%nat by lia. cbn [pred]. rewrite !due_shift, !numbers, B, B', C.
  repeat apply Forall2_app.
  - destruct (due n1 (niterPrint c) j && (rank =? 0)); repeat constructor.
  - repeat constructor. exact A.
  - destruct (due n1 (niterRestart c) (S j)); [|constructor]. constructor; [now constructor|]. destruct (isDual c); repeat constructor; exact A.
  - destruct (due n1 (niterArchive c) (S j)); [|constructor]. constructor; [now constructor|]. generalize (extraVars c). clear - A. intros l. induction l as [|v l IH]; [constructor|]. cbn [map]. constructor; [now constructor | exact IH].
  - destruct (negb (checkNan c =? 0) && due n1 (checkNan c) (S j)); repeat constructor; exact A.
  - destruct (stop dtOf step nans c' n1 s1 t1 d0 (S j)); repeat constructor; exact A.
Qed.
Lemma evs_shifts a : forall j, (1 <= j)%nat -> Forall2 (sameEvent same) (flat_map (evs dtOf step nans c rank n0 s0 t0 d0) (seq (k + j) a)) (flat_map (evs dtOf step nans c' rank n1 s1 t1 d0) (seq j a)).
Proof. induction a as [|a IH]; intros j Hj; [constructor|]. cbn [seq flat_map]. apply Forall2_app; [now apply evs_shift|]. rewrite plus_n_Sm. apply IH. lia. Qed.
Lemma len_split m : (forall j, (1 <= j <= k)%nat -> stop dtOf step nans c n0 s0 t0 d0 j = false) -> len dtOf step nans c n0 s0 t0 d0 0 (k + m) = (k + len dtOf step nans c n0 s0 t0 d0 k m)%nat.
Proof.
  intros H. assert (G : forall a j, (j + a = k)%nat -> len dtOf step nans c n0 s0 t0 d0 j (a + m) = (a + len dtOf step nans c n0 s0 t0 d0 (j + a) m)%nat).
  { induction a as [|a IH]; intros j Hj; [now rewrite Nat.add_0_r|]. cbn [plus len]. rewrite H by lia. rewrite IH by lia. now rewrite <- plus_n_Sm. }
  apply (G k 0%nat). reflexivity.
Qed.
Lemma len_first : (forall j, (1 <= j <= k)%nat -> stop dtOf step nans c n0 s0 t0 d0 j = false) -> len dtOf step nans c n0 s0 t0 d0 0 k = k.
Proof. intros H. rewrite <- (Nat.add_0_r k) at 1. rewrite len_split by exact H. cbn [len]. lia. Qed.
End L.
