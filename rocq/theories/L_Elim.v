(** Gaussian elimination on X_i = G_i0 + sum_j G_ij X_j: soundness of the elimination and positive pivots for dominated columns. *)
From Coq Require Import Reals List Bool Arith Lra Lia Permutation.
Import ListNotations.
Open Scope R_scope.

Definition sumL (l : list nat) (f : nat -> R) : R := fold_right (fun i s => f i + s) 0 l.
Definition rm (p : nat) (l : list nat) : list nat := filter (fun i => negb (i =? p)%nat) l.

Lemma in_rm p l i : In i (rm p l) <-> In i l /\ i <> p.
Proof. unfold rm. rewrite filter_In, negb_true_iff, Nat.eqb_neq. tauto. Qed.
Lemma nodup_rm p l : NoDup l -> NoDup (rm p l).
Proof. apply NoDup_filter. Qed.
Lemma rm_absent p l : ~ In p l -> rm p l = l.
Proof.
  induction l as [|a l IH]; intros H; [reflexivity|]. unfold rm in *; cbn [filter]. destruct (Nat.eqb_spec a p) as [->|n]; cbn [negb].
  - exfalso; apply H; now left.
  - rewrite IH; [reflexivity|]. intros K; apply H; now right.
Qed.
Lemma rm_comm p q l : rm p (rm q l) = rm q (rm p l).
Proof.
  induction l as [|a l IH]; [reflexivity|]. unfold rm in *; cbn [filter].
  destruct (Nat.eqb_spec a q), (Nat.eqb_spec a p); subst; cbn [negb filter]; rewrite ?Nat.eqb_refl; cbn [negb]; auto.
  - destruct (Nat.eqb_spec a p); [contradiction|]; cbn [negb]; destruct (Nat.eqb_spec a q); [contradiction|]; cbn [negb]. now rewrite IH.
Qed.
Lemma sumL_cons a l f : sumL (a :: l) f = f a + sumL l f.
Proof. reflexivity. Qed.
Lemma sumL_nil f : sumL [] f = 0.
Proof. reflexivity. Qed.
Lemma sumL_ext l f g : (forall i, In i l -> f i = g i) -> sumL l f = sumL l g.
Proof. induction l as [|a l IH]; intros H; [reflexivity|]. rewrite !sumL_cons, (H a (or_introl eq_refl)), IH; [reflexivity|]. intros i K; apply H; now right. Qed.
Lemma sumL_take p l f : NoDup l -> In p l -> sumL l f = f p + sumL (rm p l) f.
Proof.
  induction l as [|a l IH]; intros N I; [easy|]. inversion N as [|? ? NA NL]; subst. unfold rm; cbn [filter]. fold (rm p l).
  destruct (Nat.eqb_spec a p) as [->|n]; cbn [negb].
  - rewrite rm_absent by assumption. reflexivity.
  - destruct I as [->|I]; [contradiction|]. rewrite ?sumL_cons. rewrite (IH NL I). unfold sumL; cbn. lra.
Qed.
Lemma sumL_add l f g : sumL l (fun i => f i + g i) = sumL l f + sumL l g.
Proof. induction l as [|a l IH]; [rewrite !sumL_nil; lra|]. rewrite !sumL_cons, IH. lra. Qed.
Lemma sumL_scale l c f : sumL l (fun i => c * f i) = c * sumL l f.
Proof. induction l as [|a l IH]; [rewrite !sumL_nil; lra|]. rewrite !sumL_cons, IH. lra. Qed.
Lemma sumL_zero l f : (forall i, In i l -> f i = 0) -> sumL l f = 0.
Proof. induction l as [|a l IH]; intros H; [reflexivity|]. rewrite ?sumL_cons. rewrite (H a (or_introl eq_refl)), IH; [lra|]. intros i K; apply H; now right. Qed.
Lemma sumL_nonneg l f : (forall i, In i l -> 0 <= f i) -> 0 <= sumL l f.
Proof. induction l as [|a l IH]; intros H; [rewrite sumL_nil; lra|]. rewrite sumL_cons. pose proof (H a (or_introl eq_refl)). assert (0 <= sumL l f) by (apply IH; intros i K; apply H; now right). lra. Qed.
Lemma sumL_perm l l' f : Permutation l l' -> sumL l f = sumL l' f.
Proof. induction 1; unfold sumL in *; cbn in *; lra. Qed.
Lemma sumL_app l l' f : sumL (l ++ l') f = sumL l f + sumL l' f.
Proof. induction l as [|a l IH]; [rewrite sumL_nil; cbn [app]; lra|]. cbn [app]. rewrite !sumL_cons, IH. lra. Qed.
(** a sum over l is the sum over a part of l if the other terms vanish *)
Lemma sumL_part l l' f : NoDup l -> NoDup l' -> (forall i, In i l' -> In i l) -> (forall i, In i l -> ~ In i l' -> f i = 0) -> sumL l f = sumL l' f.
Proof.
  revert l. induction l' as [|a l' IH]; intros l N N' I Z.
  - cbn. apply sumL_zero. intros i K. apply Z; [exact K|intros []].
  - inversion N' as [|? ? NA NL]; subst. rewrite (sumL_take a l f N (I a (or_introl eq_refl))). rewrite ?sumL_cons. f_equal. apply IH.
    + now apply nodup_rm. + assumption.
    + intros i K. apply in_rm. split; [apply I; now right|]. intros ->. contradiction.
    + intros i K NK. apply in_rm in K. destruct K as [K1 K2]. apply Z; [assumption|]. intros [E|K]; [congruence|contradiction].
Qed.

Definition mat := nat -> nat -> R.
(** X solves row i of the system restricted to the unknowns in act *)
Definition rowOK (act : list nat) (G : mat) (X : nat -> R) (i : nat) : Prop := X i = G i 0%nat + sumL (rm i act) (fun j => G i j * X j).
(** every row with unknown p replaced by row p *)
Definition elimAll (p : nat) (G : mat) : mat := fun i j => (G i j + G i p * G p j) / (1 - G i p * G p i).

Lemma elim_back act G X p i : NoDup act -> In p act -> In i act -> i <> p -> 1 - G i p * G p i <> 0 ->
  rowOK (rm p act) (elimAll p G) X i -> rowOK act G X p -> rowOK act G X i.
Proof.
  intros N P I NE D RI RP. unfold rowOK in *.
  rewrite (sumL_take i (rm p act)) in RP; [|now apply nodup_rm|apply in_rm; now split].
  rewrite (sumL_take p (rm i act)); [|now apply nodup_rm|apply in_rm; split; auto].
  rewrite (rm_comm p i act). set (S1 := sumL (rm i (rm p act)) (fun j => G i j * X j)). set (S2 := sumL (rm i (rm p act)) (fun j => G p j * X j)) in *.
  assert (E : sumL (rm i (rm p act)) (fun j => elimAll p G i j * X j) = (S1 + G i p * S2) / (1 - G i p * G p i)).
  { unfold S1, S2. rewrite <- sumL_scale, <- sumL_add. unfold Rdiv. rewrite Rmult_comm, <- sumL_scale. apply sumL_ext. intros j _. unfold elimAll, Rdiv. ring. }
  rewrite E in RI. unfold elimAll in RI.
  assert (F : X i * (1 - G i p * G p i) = G i 0%nat + G i p * G p 0%nat + (S1 + G i p * S2)) by (rewrite RI; field; exact D).
  rewrite RP. nra.
Qed.

Definition dom (act : list nat) (G : mat) (w : nat -> R) : Prop :=
  (forall i j, In i act -> In j act -> i <> j -> 0 <= G i j) /\ (forall i, In i act -> 0 <= G i 0%nat) /\ (forall i, In i act -> 0 < w i) /\
  (forall j, In j act -> sumL (rm j act) (fun i => w i * G i j) < w j).

Lemma dom_elim act G w p : NoDup act -> In p act -> dom act G w ->
  (forall i, In i (rm p act) -> 0 < 1 - G i p * G p i) /\ dom (rm p act) (elimAll p G) (fun i => w i * (1 - G i p * G p i)).
Proof.
  intros N P (HN & H0 & HW & HC).
  assert (K : forall j, In j (rm p act) -> sumL (rm j (rm p act)) (fun i => w i * (G i j + G i p * G p j)) < w j * (1 - G j p * G p j)).
  { intros j J. apply in_rm in J. destruct J as [J JP].
    pose proof (HC j J) as C1. pose proof (HC p P) as C2.
    rewrite (sumL_take p (rm j act)) in C1; [|now apply nodup_rm|apply in_rm; split; auto].
    rewrite (sumL_take j (rm p act)) in C2; [|now apply nodup_rm|apply in_rm; split; auto].
    rewrite (rm_comm p j act) in C1.
    set (S1 := sumL (rm j (rm p act)) (fun i => w i * G i j)) in *. set (S2 := sumL (rm j (rm p act)) (fun i => w i * G i p)) in *.
    replace (sumL (rm j (rm p act)) (fun i => w i * (G i j + G i p * G p j))) with (S1 + G p j * S2).
    2:{ unfold S1, S2. rewrite <- sumL_scale, <- sumL_add. apply sumL_ext. intros i _. ring. }
    assert (0 <= G p j) by (apply HN; auto). nra. }
  assert (D : forall i, In i (rm p act) -> 0 < 1 - G i p * G p i).
  { intros i I. pose proof (K i I) as KI. pose proof I as I'. apply in_rm in I'. destruct I' as [I1 I2].
    assert (0 <= sumL (rm i (rm p act)) (fun r => w r * (G r i + G r p * G p i))).
    { apply sumL_nonneg. intros r R0. apply in_rm in R0. destruct R0 as [R1 R2]. apply in_rm in R1. destruct R1 as [R1 R3].
      pose proof (HW r R1). assert (0 <= G r i) by (apply HN; auto). assert (0 <= G r p) by (apply HN; auto). assert (0 <= G p i) by (apply HN; auto).
      apply Rmult_le_pos; [lra|]. assert (0 <= G r p * G p i) by (now apply Rmult_le_pos). lra. }
    pose proof (HW i I1). apply Rnot_le_lt. intros L. assert (w i * (1 - G i p * G p i) <= 0) by nra. lra. }
  split; [exact D|]. split; [|split; [|split]].
  - intros i j I J NE. pose proof (D i I). apply in_rm in I. apply in_rm in J. destruct I as [I1 I2], J as [J1 J2]. unfold elimAll.
    apply Rmult_le_pos; [|left; now apply Rinv_0_lt_compat].
    assert (0 <= G i j) by (apply HN; auto). assert (0 <= G i p * G p j) by (apply Rmult_le_pos; apply HN; auto). lra.
  - intros i I. pose proof (D i I). apply in_rm in I. destruct I as [I1 I2]. unfold elimAll. apply Rmult_le_pos; [|left; now apply Rinv_0_lt_compat].
    pose proof (H0 i I1). assert (0 <= G i p * G p 0%nat) by (apply Rmult_le_pos; [apply HN|apply H0]; auto). lra.
  - intros i I. pose proof (D i I). apply in_rm in I. destruct I as [I1 I2]. apply Rmult_lt_0_compat; auto.
  - intros j J. eapply Rle_lt_trans; [|exact (K j J)]. right. apply sumL_ext. intros i I. apply in_rm in I. destruct I as [I _].
    pose proof (D i I). unfold elimAll. field. lra.
Qed.

(** all the pivots of an elimination order are non-zero *)
Fixpoint pivots (ps act : list nat) (G : mat) : Prop :=
  match ps with
  | [] => True
  | p :: ps' => (forall i, In i (rm p act) -> 1 - G i p * G p i <> 0) /\ pivots ps' (rm p act) (elimAll p G)
  end.
(** X solves the row of each pivot at the moment it is eliminated, and the rows that remain at the end *)
Fixpoint solved (ps act : list nat) (G : mat) (X : nat -> R) : Prop :=
  match ps with
  | [] => forall i, In i act -> rowOK act G X i
  | p :: ps' => rowOK act G X p /\ solved ps' (rm p act) (elimAll p G) X
  end.
Lemma solved_all ps : forall act G X, NoDup act -> NoDup ps -> (forall p, In p ps -> In p act) -> pivots ps act G -> solved ps act G X ->
  forall i, In i act -> rowOK act G X i.
Proof.
  induction ps as [|p ps IH]; intros act G X N NP IN PV SO i I; [now apply SO|].
  destruct PV as [P1 P2], SO as [S1 S2]. inversion NP as [|? ? NA NL]; subst. destruct (Nat.eq_dec i p) as [->|NE]; [exact S1|].
  assert (I' : In i (rm p act)) by (apply in_rm; now split).
  apply (elim_back act G X p i); auto; [apply IN; now left|].
  refine (IH (rm p act) (elimAll p G) X (nodup_rm p act N) NL _ P2 S2 i I').
  intros q Q. apply in_rm. split; [apply IN; now right|]. intros ->. contradiction.
Qed.
Lemma dom_pivots ps : forall act G w, NoDup act -> NoDup ps -> (forall p, In p ps -> In p act) -> dom act G w -> pivots ps act G.
Proof.
  induction ps as [|p ps IH]; intros act G w N NP IN DM; [exact Logic.I|]. inversion NP as [|? ? NA NL]; subst.
  destruct (dom_elim act G w p N (IN p (or_introl eq_refl)) DM) as [D1 D2]. split.
  - intros i K. pose proof (D1 i K). lra.
  - apply (IH _ _ _ (nodup_rm p act N) NL) with (2 := D2). intros q Q. apply in_rm. split; [apply IN; now right|]. intros ->. contradiction.
Qed.
(** and a solution built that way is non-negative *)
Lemma dom_nonneg ps : forall act G w X, NoDup act -> NoDup ps -> (forall p, In p ps -> In p act) -> (forall i, In i act -> ~ In i ps -> act = i :: [] \/ exists l l', act = l ++ i :: l' /\ forall j, In j (l ++ l') -> In j ps) ->
  dom act G w -> solved ps act G X -> forall i, In i act -> 0 <= X i.
Proof.
  induction ps as [|p ps IH]; intros act G w X N NP IN LAST DM SO i I.
  - destruct DM as (HN & H0 & HW & HC). pose proof (SO i I) as E. unfold rowOK in E.
    assert (Z : rm i act = []).
    { destruct (LAST i I (fun F => F)) as [->|(l & l' & -> & A)].
      - unfold rm; cbn. now rewrite Nat.eqb_refl.
      - destruct l as [|b l]; [|destruct (A b (or_introl eq_refl))]. destruct l' as [|b l']; [|destruct (A b (or_introl eq_refl))].
        unfold rm; cbn. now rewrite Nat.eqb_refl. }
    rewrite Z in E. cbn in E. rewrite E. pose proof (H0 i I). lra.
  - inversion NP as [|? ? NA NL]; subst. destruct SO as [S1 S2].
    destruct (dom_elim act G w p N (IN p (or_introl eq_refl)) DM) as [D1 D2].
    assert (POS : forall j, In j (rm p act) -> 0 <= X j).
    { intros j J. refine (IH (rm p act) (elimAll p G) _ X (nodup_rm p act N) NL _ _ D2 S2 j J).
      - intros q Q. apply in_rm. split; [apply IN; now right|]. intros ->. contradiction.
      - intros k K NK. apply in_rm in K. destruct K as [K1 K2].
        destruct (LAST k K1) as [E|(l & l' & E & A)].
        + intros [F|F]; [congruence|contradiction].
        + left. rewrite E. unfold rm; cbn. destruct (Nat.eqb_spec k p); [contradiction|reflexivity].
        + right. exists (rm p l), (rm p l'). split.
          * rewrite E. unfold rm. rewrite filter_app. cbn. destruct (Nat.eqb_spec k p); [contradiction|reflexivity].
          * intros j0 J0. rewrite in_app_iff, !in_rm in J0. destruct (A j0) as [F|F]; [rewrite in_app_iff; tauto| |exact F]. subst. tauto. }
    destruct (Nat.eq_dec i p) as [->|NE]; [|apply POS; apply in_rm; now split].
    rewrite S1. destruct DM as (HN & H0 & HW & HC). apply Rplus_le_le_0_compat; [now apply H0|].
    apply sumL_nonneg. intros j J. apply Rmult_le_pos; [apply in_rm in J; apply HN; intuition|now apply POS].
Qed.
