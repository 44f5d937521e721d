(** Lemmas about in-place updates and the cut model. *)
From Coq Require Import ZArith String Ascii List Bool Lia Reals Lra.
From Verif Require Import M_Topology S_Topology L_Topology M_Cut S_Cut.
Import ListNotations.
Open Scope Z_scope.

Lemma blk_lt mb n b : blk mb n b -> 0 <= n < Z.of_nat (length mb).
Proof. intros [H E]. split; [lia|]. apply nth_error_Some_lt in E || (assert (nth_error mb (Z.to_nat n) <> None) by congruence; apply nth_error_Some in H0; lia). Qed.

Lemma blk_fun mb n b c : blk mb n b -> blk mb n c -> b = c.
Proof. intros [_ E] [_ F]. congruence. Qed.

Lemma blk_ex mb n : 0 <= n < Z.of_nat (length mb) -> exists b, blk mb n b.
Proof.
  intros H. destruct (nth_error mb (Z.to_nat n)) as [b|] eqn:E.
  - exists b. split; [lia|auto].
  - apply nth_error_None in E. lia.
Qed.

Lemma getBlk_blk mb n b : wfGrid mb -> blk mb n b -> getBlk mb n = Some b.
Proof.
  intros W H. pose proof (blk_lt _ _ _ H) as L. pose proof (W _ _ H) as [G _]. destruct H as [H E].
  unfold getBlk, py_index.
  replace ((0 <=? n) && (n <? Z.of_nat (length mb))) with true by (symmetry; apply andb_true_intro; lia).
  rewrite E. replace (gn b =? n) with true by (symmetry; lia). reflexivity.
Qed.

Lemma nth_updBlk mb n f m b : wfGrid mb -> blk mb m b ->
  blk (updBlk n f mb) m (if m =? n then f b else b).
Proof.
  intros W H. pose proof (W _ _ H) as [G _]. destruct H as [H E]. split; [lia|].
  unfold updBlk. rewrite nth_error_map, E. cbn [option_map]. now rewrite G.
Qed.

Lemma updBlk_len mb n f : length (updBlk n f mb) = length mb.
Proof. unfold updBlk. apply map_length. Qed.

Lemma updBlk_inv mb n f m b : wfGrid mb -> blk (updBlk n f mb) m b ->
  exists c, blk mb m c /\ b = (if m =? n then f c else c).
Proof.
  intros W H. pose proof (blk_lt _ _ _ H) as L. rewrite updBlk_len in L.
  destruct (blk_ex mb m L) as [c C]. exists c. split; [auto|].
  eapply blk_fun; [exact H|]. now apply nth_updBlk.
Qed.

Definition faceNums (b : gblock) := map (fun g => nface (topo g)) (gfaces b).
Definition good (f : gblock -> gblock) : Prop :=
  forall b, gn (f b) = gn b /\ (faceNums b = [1;2;3;4;5;6] -> faceNums (f b) = [1;2;3;4;5;6]).

Lemma wf_updBlk mb n f : wfGrid mb ->
  (forall b, blk mb n b -> gn (f b) = gn b /\ faceNums (f b) = [1;2;3;4;5;6]) -> wfGrid (updBlk n f mb).
Proof.
  intros W G m b H. apply updBlk_inv in H as [c [C ->]]; [|auto].
  destruct (W _ _ C) as [A B]. destruct (Z.eqb_spec m n) as [->|N]; [|auto].
  destruct (G c C) as [X Y]. rewrite X. auto.
Qed.

Lemma wf_len b mb n : wfGrid mb -> blk mb n b -> length (gfaces b) = 6%nat.
Proof. intros W H. destruct (W _ _ H) as [_ E]. apply (f_equal (@length Z)) in E. now rewrite map_length in E. Qed.

Lemma set_nth_nth {A} (l : list A) i v j :
  (i < length l)%nat -> nth_error (set_nth l i v) j = if Nat.eqb j i then Some v else nth_error l j.
Proof.
  revert i j. induction l as [|h t IH]; intros [|i] [|j] H; cbn in *; try lia; try reflexivity.
  apply IH. lia.
Qed.

Lemma set_nth_len {A} (l : list A) i v : length (set_nth l i v) = length l.
Proof. revert i. induction l as [|h t IH]; intros [|i]; cbn; congruence. Qed.

Lemma faceOf_updFace k f b j : 1 <= k <= 6 -> 1 <= j <= 6 -> length (gfaces b) = 6%nat ->
  faceOf (updFace k f b) j = if j =? k then option_map f (faceOf b j) else faceOf b j.
Proof.
  intros Hk Hj L. unfold faceOf, updFace. cbn [gfaces].
  replace ((1 <=? j) && (j <=? 6)) with true by (symmetry; apply andb_true_intro; lia).
  destruct (nth_error (gfaces b) (Z.to_nat (k - 1))) as [g|] eqn:E.
  - rewrite set_nth_nth by lia. destruct (Z.eqb_spec j k) as [->|N].
    + rewrite Nat.eqb_refl, E. reflexivity.
    + replace (Nat.eqb (Z.to_nat (j - 1)) (Z.to_nat (k - 1))) with false; [reflexivity|].
      symmetry. apply Nat.eqb_neq. lia.
  - apply nth_error_None in E. lia.
Qed.

Lemma updFace_len k f b : length (gfaces (updFace k f b)) = length (gfaces b).
Proof. unfold updFace. cbn [gfaces]. destruct nth_error; [apply set_nth_len|reflexivity]. Qed.

Lemma faceOf_ex b j : 1 <= j <= 6 -> length (gfaces b) = 6%nat -> exists g, faceOf b j = Some g.
Proof.
  intros H L. unfold faceOf.
  replace ((1 <=? j) && (j <=? 6)) with true by (symmetry; apply andb_true_intro; lia).
  destruct nth_error eqn:E; [eauto|]. apply nth_error_None in E. lia.
Qed.

Lemma updFace_nums k f b : 1 <= k <= 6 ->
  (forall g, nface (topo (f g)) = nface (topo g)) -> faceNums (updFace k f b) = faceNums b.
Proof.
  intros _ F. unfold faceNums, updFace. cbn [gfaces].
  destruct (nth_error (gfaces b) (Z.to_nat (k - 1))) as [g|] eqn:E; [|reflexivity].
  revert E. generalize (Z.to_nat (k - 1)). induction (gfaces b) as [|h t IH]; intros [|i] E; cbn in *; try discriminate.
  - injection E as ->. now rewrite F.
  - f_equal. now apply IH.
Qed.

Lemma faceNo_range s : 1 <= faceNo s <= 6.
Proof. destruct s as [[] []]; cbn; lia. Qed.

Lemma fac_faceOf mb n k g : fac mb n k g <-> exists b, blk mb n b /\ faceOf b k = Some g.
Proof.
  unfold fac, faceOf. split.
  - intros (b & B & K & E). exists b. split; [auto|].
    replace ((1 <=? k) && (k <=? 6)) with true by (symmetry; apply andb_true_intro; lia). auto.
  - intros (b & B & E). exists b. destruct ((1 <=? k) && (k <=? 6)) eqn:X; [|discriminate].
    apply andb_true_iff in X. split; [exact B|]. split; [lia|exact E].
Qed.

Lemma face_num b k g : faceNums b = [1;2;3;4;5;6] -> faceOf b k = Some g -> nface (topo g) = k.
Proof.
  unfold faceOf, faceNums. intros N E. destruct ((1 <=? k) && (k <=? 6)) eqn:X; [|discriminate].
  apply andb_true_iff in X. apply (map_nth_error (fun g => nface (topo g))) in E. rewrite N in E.
  assert (C : k = 1 \/ k = 2 \/ k = 3 \/ k = 4 \/ k = 5 \/ k = 6) by lia.
  destruct C as [->|[->|[->|[->|[->| ->]]]]]; cbn in E; now injection E.
Qed.

(** The number given to an appended block. *)
Lemma fold_max mb : forall acc, let f := fold_left (fun m b => if m <? gn b then gn b else m) mb acc in
  acc <= f /\ (forall b, In b mb -> gn b <= f) /\ (f = acc \/ exists b, In b mb /\ gn b = f).
Proof.
  induction mb as [|h t IH]; intros acc; cbn [fold_left].
  - repeat split; [lia|easy|auto].
  - specialize (IH (if acc <? gn h then gn h else acc)). cbv zeta in IH |- *. destruct IH as (A & B & C).
    destruct (Z.ltb_spec acc (gn h)); (split; [lia|split]).
    + intros b [<-|I]; [lia|auto].
    + destruct C as [C|[b [I C]]]; right; [exists h|exists b]; split; cbn; auto.
    + intros b [<-|I]; [lia|auto].
    + destruct C as [C|[b [I C]]]; [left; lia|right; exists b; split; cbn; auto].
Qed.

Lemma fresh_len mb : wfGrid mb -> mb <> [] -> freshNumber mb = Z.of_nat (length mb).
Proof.
  intros W NE. unfold freshNumber. destruct (fold_max mb 0) as (A & B & C). cbv zeta in *.
  set (f := fold_left _ mb 0) in *. clearbody f.
  assert (L : (0 < length mb)%nat) by (destruct mb; cbn; [congruence|lia]).
  destruct (blk_ex mb (Z.of_nat (length mb) - 1) ltac:(lia)) as [b Hb].
  destruct (W _ _ Hb) as [G _]. destruct Hb as [_ E]. apply nth_error_In in E. specialize (B _ E).
  destruct C as [->|[c [I Hc]]]; [lia|].
  apply In_nth_error in I as [i I]. assert (blk mb (Z.of_nat i) c) by (split; [lia|now rewrite Nat2Z.id]).
  pose proof (blk_lt _ _ _ H). destruct (W _ _ H). lia.
Qed.

Lemma blk_app_old mb x n b : blk mb n b -> blk (mb ++ [x]) n b.
Proof. intros H. pose proof (blk_lt _ _ _ H). destruct H as [A E]. split; [auto|]. rewrite nth_error_app1 by lia. auto. Qed.

Lemma blk_app_new mb x : blk (mb ++ [x]) (Z.of_nat (length mb)) x.
Proof. split; [lia|]. rewrite nth_error_app2 by lia. rewrite Nat2Z.id, Nat.sub_diag. reflexivity. Qed.

Lemma blk_app_inv mb x n b : blk (mb ++ [x]) n b -> blk mb n b \/ (n = Z.of_nat (length mb) /\ b = x).
Proof.
  intros H. pose proof (blk_lt _ _ _ H) as L. rewrite app_length in L. cbn in L.
  assert (n < Z.of_nat (length mb) \/ n = Z.of_nat (length mb)) as [C|C] by lia.
  - left. destruct (blk_ex mb n ltac:(lia)) as [c Hc]. rewrite (blk_fun _ _ _ _ H (blk_app_old _ x _ _ Hc)). auto.
  - right. split; [auto|]. subst n. eapply blk_fun; [exact H|]. apply blk_app_new.
Qed.

Lemma normalise_unit a b c : (a * a + b * b + c * c = 1)%R -> normalise (a, b, c) = (a, b, c).
Proof. intros H. unfold normalise. rewrite H, sqrt_1. unfold Rdiv. now rewrite Rinv_1, !Rmult_1_r. Qed.

Lemma copyPeriodic_ok src dst : periodicReady src ->
  exists g, copyPeriodic src dst = Some g /\ topo g = topo dst /\
    (isPeriodic (bcType (topo src)) = true -> span g = span src /\ paxis g = paxis src).
Proof.
  intros P. unfold copyPeriodic, periodicReady in *. destruct (isPeriodic _).
  - destruct (P eq_refl) as (a & b & c & E & U). rewrite E, normalise_unit by auto.
    eexists. split; [reflexivity|]. cbn. auto.
  - exists dst. repeat split; intros; discriminate.
Qed.
