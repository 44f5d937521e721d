(** C157: the residual printed by the dual-time integrator is the size of the last change of the primitives over the whole run. *)
From Coq Require Import Reals ZArith List Bool Lia Lra Permutation.
From Verif Require Import M_Topology M_Halo M_Grid M_Metrics M_Flux M_Control M_Residual S_Metrics S_Sum S_Control S_Residual L_Sum L_Halo1 P_Control.
Import ListNotations.
Open Scope R_scope.
Open Scope list_scope.

Definition sumL (l : list R) : R := fold_right Rplus 0 l.
Lemma sumL_app a b : sumL (a ++ b) = sumL a + sumL b.
Proof. unfold sumL. induction a; cbn [fold_right app]; lra. Qed.
Lemma sumL_perm a b : Permutation a b -> sumL a = sumL b.
Proof. unfold sumL. induction 1; cbn [fold_right]; lra. Qed.
Lemma sumL_flat {A} (g : A -> list R) l : sumL (flat_map g l) = sumL (map (fun x => sumL (g x)) l).
Proof. induction l; cbn [flat_map map]; [reflexivity|]. rewrite sumL_app, IHl. reflexivity. Qed.
Lemma fold_left_sumL l : forall a, fold_left Rplus l a = a + sumL l.
Proof. unfold sumL. induction l; intros; cbn [fold_left fold_right]; [lra|]. rewrite IHl. lra. Qed.
Lemma sumL_nonneg l : (forall x, In x l -> 0 <= x) -> 0 <= sumL l.
Proof. unfold sumL. induction l; intros H; cbn [fold_right]; [lra|]. pose proof (H a (or_introl eq_refl)). enough (0 <= fold_right Rplus 0 l) by lra. apply IHl. intros; apply H; now right. Qed.
Lemma sumL_ge l x : (forall x, In x l -> 0 <= x) -> In x l -> x <= sumL l.
Proof.
  intros H. induction l; intros I; [destruct I|]. assert (N : forall x, In x l -> 0 <= x) by (intros; apply H; now right).
  pose proof (sumL_nonneg _ N). pose proof (H a (or_introl eq_refl)). unfold sumL in *. cbn [fold_right]. destruct I as [-> |I]; [lra|]. specialize (IHl N I). lra.
Qed.
Lemma sumL_zero l : (forall x, In x l -> 0 <= x) -> sumL l = 0 -> forall x, In x l -> x = 0.
Proof. intros H E x I. pose proof (sumL_ge l x H I). specialize (H x I). lra. Qed.

(** ** the reduction does not depend on how the cells are shared out *)
Lemma reduce_sum b l t : snd (reduceRes b l t) = sumL (map (fun c => res b l c ^ 2) (leaves t)).
Proof.
  induction t; cbn [reduceRes leaves map snd fst]; auto.
  - cbv zeta. cbn [snd fst]. rewrite IHt. unfold sumL. cbn [fold_right]. lra.
  - rewrite IHt1, IHt2, map_app, sumL_app. reflexivity.
Qed.
Lemma fold_residual mb l : forall s, snd (fold_left (fun s bt => let r := reduceRes (fst bt) l (snd bt l) in (Rmax (fst r) (fst s), snd s + snd r)) mb s) =
  snd s + sumL (map (fun bt => snd (reduceRes (fst bt) l (snd bt l))) mb).
Proof. induction mb; intros; cbn [fold_left map]; [unfold sumL; cbn; lra|]. rewrite IHmb. cbv zeta. cbn [snd]. unfold sumL. cbn [fold_right]. lra. Qed.
Lemma residual_sum mb l : snd (residual mb l) = sumL (map (fun bt => snd (reduceRes (fst bt) l (snd bt l))) mb).
Proof. unfold residual. rewrite fold_residual. cbn [snd]. lra. Qed.

Definition cellsIn (d : dims) (ng : Z) : list (Z * Z * Z) :=
  flat_map (fun i => flat_map (fun j => map (fun k => (i, j, k)) (zrange ng (ng + nk d - 1))) (zrange ng (ng + nj d - 1))) (zrange ng (ng + ni d - 1)).
Lemma cellsIn_spec d ng i j k : In (i, j, k) (cellsIn d ng) <-> interior d ng i j k.
Proof.
  unfold cellsIn, interior. rewrite in_flat_map. split.
  - intros (x & X & Y). apply in_flat_map in Y as (y & Y & Z). apply in_map_iff in Z as (z & E & Z). injection E as <- <- <-. apply zrange_in in X, Y, Z. lia.
  - intros H. exists i. split; [apply zrange_in; lia|]. apply in_flat_map. exists j. split; [apply zrange_in; lia|]. apply in_map_iff. exists k. split; auto. apply zrange_in; lia.
Qed.
Lemma zrange_nodup a b : NoDup (zrange a b).
Proof. unfold zrange. apply FinFun.Injective_map_NoDup; [intros x y E; lia|apply seq_NoDup]. Qed.
Lemma flat_nodup {A B} (f : A -> list B) l : NoDup l -> (forall a, In a l -> NoDup (f a)) -> (forall a b x, In x (f a) -> In x (f b) -> a = b) -> NoDup (flat_map f l).
Proof.
  intros N. induction N as [|a l NI N IH]; intros F D; cbn [flat_map]; [constructor|].
  assert (IH' : NoDup (flat_map f l)) by (apply IH; [intros; apply F; now right|auto]).
  assert (Fa : NoDup (f a)) by (apply F; now left).
  assert (Q : forall x, In x (f a) -> ~ In x (flat_map f l)). { intros x X Y. apply in_flat_map in Y as (b & Bi & Y). rewrite (D a b x X Y) in NI. auto. }
  clear - IH' Fa Q. induction (f a); cbn [app]; auto. apply NoDup_cons_iff in Fa as [A1 A2]. constructor.
  - intros I. apply in_app_iff in I as [I|I]; [auto|]. exact (Q _ (or_introl eq_refl) I).
  - apply IHl0; auto. intros; apply Q; now right.
Qed.
Lemma cellsIn_nodup d ng : NoDup (cellsIn d ng).
Proof.
  apply flat_nodup; [apply zrange_nodup| |].
  - intros i _. apply flat_nodup; [apply zrange_nodup| |].
    + intros j _. apply FinFun.Injective_map_NoDup; [intros x y E; congruence|apply zrange_nodup].
    + intros a b x X Y. apply in_map_iff in X as (? & E1 & _), Y as (? & E2 & _). congruence.
  - intros a b x X Y. apply in_flat_map in X as (? & _ & X), Y as (? & _ & Y). apply in_map_iff in X as (? & E1 & _), Y as (? & E2 & _). congruence.
Qed.
Lemma cells_perm d ng t : visitsInterior d ng (leaves t) -> NoDup (leaves t) -> Permutation (leaves t) (cellsIn d ng).
Proof. intros V N. apply NoDup_Permutation; auto using cellsIn_nodup. intros [[i j] k]. rewrite cellsIn_spec. apply V. Qed.
Lemma sum_cellsIn d ng f : sumL (map f (cellsIn d ng)) = sum3 (ng, ng, ng) (ng + ni d - 1, ng + nj d - 1, ng + nk d - 1)%Z (fun i j k => f (i, j, k)).
Proof.
  unfold cellsIn, sum3, sumZ. cbn [fst snd]. rewrite !flat_map_concat_map, concat_map, map_map, <- flat_map_concat_map, sumL_flat. unfold sumL at 1. f_equal. apply map_ext. intros i.
  rewrite !flat_map_concat_map, concat_map, map_map, <- flat_map_concat_map, sumL_flat. unfold sumL at 1. f_equal. apply map_ext. intros j.
  rewrite map_map. reflexivity.
Qed.
Lemma block_squares b l t : visitsInterior (rb_d b) (rb_ng b) (leaves t) -> NoDup (leaves t) -> snd (reduceRes b l t) = blockSquares l b.
Proof.
  intros V N. rewrite reduce_sum, (sumL_perm _ _ (Permutation_map _ (cells_perm _ _ _ V N))), sum_cellsIn. unfold blockSquares. apply sum3_ext. intros i j k _ _ _.
  unfold res, changeOf. apply (eq_trans (y := Rsqr (Rabs (rb_q b i j k l - rb_q0 b i j k l)))); [unfold Rsqr; ring|]. rewrite <- Rsqr_abs. unfold Rsqr. ring.
Qed.
Lemma blockSquares_nonneg l b : 0 <= blockSquares l b.
Proof. unfold blockSquares. rewrite <- (sum_cellsIn _ _ (fun c => let '(i, j, k) := c in changeOf b l i j k ^ 2)). apply sumL_nonneg. intros x I. apply in_map_iff in I as ([[i j] k] & <- & _). apply pow2_ge_0. Qed.

Theorem C157_printed_number : forall ranks l, eachCellOnce ranks l -> snd (report ranks l) = sqrt (totalSquares ranks l).
Proof.
  intros ranks l H. unfold report. cbn [snd]. f_equal. rewrite fold_left_sumL, Rplus_0_l. unfold totalSquares, allBlocks. rewrite map_map.
  change (fold_right Rplus 0) with sumL. induction ranks as [|mb r IH]; [reflexivity|]. cbn [map concat]. rewrite map_app, sumL_app, <- IH by (intros mb2 b t A B; exact (H mb2 b t (or_intror A) B)).
  unfold sumL at 1. cbn [fold_right]. f_equal. rewrite residual_sum. f_equal. apply map_ext_in. intros [b t] I. cbn [fst snd].
  destruct (H mb b t (or_introl eq_refl) I). now apply block_squares.
Qed.
(** distributing the blocks differently over the ranks prints the same *)
Theorem C157_any_distribution : forall r1 r2 l, eachCellOnce r1 l -> eachCellOnce r2 l -> Permutation (allBlocks r1) (allBlocks r2) -> snd (report r1 l) = snd (report r2 l).
Proof.
  intros r1 r2 l A B P. rewrite !C157_printed_number by auto. unfold totalSquares. f_equal. apply (sumL_perm _ _ (Permutation_map (blockSquares l) P)).
Qed.
Lemma blockSquares_cell l b i j k : interior (rb_d b) (rb_ng b) i j k -> changeOf b l i j k ^ 2 <= blockSquares l b.
Proof.
  intros I. unfold blockSquares. rewrite <- (sum_cellsIn _ _ (fun c => let '(i, j, k) := c in changeOf b l i j k ^ 2)). apply sumL_ge.
  - intros x J. apply in_map_iff in J as ([[? ?] ?] & <- & _). apply pow2_ge_0.
  - apply in_map_iff. exists (i, j, k). split; auto. now apply cellsIn_spec.
Qed.
(** no cell changed by more than the number printed *)
Theorem C157_bounds_every_change : forall ranks l b i j k, eachCellOnce ranks l -> In b (allBlocks ranks) -> interior (rb_d b) (rb_ng b) i j k ->
  Rabs (changeOf b l i j k) <= snd (report ranks l).
Proof.
  intros ranks l b i j k H B I. rewrite (C157_printed_number _ _ H), <- sqrt_Rsqr_abs. apply sqrt_le_1_alt. unfold Rsqr.
  pose proof (blockSquares_cell l b i j k I). unfold totalSquares. change (fold_right Rplus 0) with sumL.
  enough (blockSquares l b <= sumL (map (blockSquares l) (allBlocks ranks))) by lra. apply sumL_ge; [|now apply in_map]. intros x J. apply in_map_iff in J as (? & <- & _). apply blockSquares_nonneg.
Qed.
(** zero is printed exactly when the sub-iteration changed nothing *)
Theorem C157_zero_iff_unchanged : forall ranks l, eachCellOnce ranks l ->
  (snd (report ranks l) = 0 <-> forall b i j k, In b (allBlocks ranks) -> interior (rb_d b) (rb_ng b) i j k -> rb_q b i j k l = rb_q0 b i j k l).
Proof.
  intros ranks l H. split.
  - intros E b i j k B I. pose proof (C157_bounds_every_change _ _ _ _ _ _ H B I) as A. rewrite E in A. unfold changeOf in A. pose proof (Rabs_pos (rb_q b i j k l - rb_q0 b i j k l)).
    destruct (Req_dec (rb_q b i j k l - rb_q0 b i j k l) 0) as [Z|Z]; [lra|]. pose proof (Rabs_pos_lt _ Z). lra.
  - intros A. rewrite (C157_printed_number _ _ H). unfold totalSquares. replace (map (blockSquares l) (allBlocks ranks)) with (map (fun _ : rblock => 0) (allBlocks ranks)).
    + replace (fold_right _ _ _) with 0; [apply sqrt_0|]. induction (allBlocks ranks); cbn [map fold_right]; [auto|]. rewrite <- IHl0 by (intros; apply A; auto; now right). lra.
    + apply map_ext_in. intros b B. symmetry. unfold blockSquares. rewrite <- (sum_cellsIn _ _ (fun c => let '(i, j, k) := c in changeOf b l i j k ^ 2)).
      rewrite (map_ext_in _ (fun _ => 0)). { induction (cellsIn _ _); unfold sumL in *; cbn [map fold_right]; lra. }
      intros [[i j] k] I. apply cellsIn_spec in I. unfold changeOf. rewrite (A b i j k B I). ring.
Qed.
(** ** what a step prints: nothing, or a heading and twenty numbered lines *)
Theorem C157_lines : forall ne nrt niter sub, (nrt mod niter <> 0)%Z -> stepPrints ne nrt niter sub = [].
Proof.
  intros. unfold stepPrints. apply Z.eqb_neq in H. rewrite H. induction (zrange 0 20); cbn [flat_map app]; auto.
Qed.
Theorem C157_twenty_lines : forall ne nrt niter sub, (nrt mod niter = 0)%Z ->
  stepPrints ne nrt niter sub = Heading (5 <? ne)%Z :: map (fun n => Line n (map (fun l => snd (report (sub (n - 1)%Z) l)) (zrange 0 ne))) (zrange 1 21).
Proof.
  intros. unfold stepPrints. apply Z.eqb_eq in H. rewrite H. change (zrange 0 20) with [0;1;2;3;4;5;6;7;8;9;10;11;12;13;14;15;16;17;18;19]%Z.
  change (zrange 1 21) with [1;2;3;4;5;6;7;8;9;10;11;12;13;14;15;16;17;18;19;20]%Z. reflexivity.
Qed.
(** ** the largest change, which the integrator also gathers but never prints, is that of the rank that changes least *)
Lemma foldmin_le r : forall y, fold_left Rmin r y <= y /\ forall x, In x r -> fold_left Rmin r y <= x.
Proof.
  induction r as [|z r IH]; intros y; cbn [fold_left]; [split; [lra|intros x []]|]. destruct (IH (Rmin y z)) as [A B]. split.
  - eapply Rle_trans; [exact A|apply Rmin_l].
  - intros x [E|I]; [subst x; eapply Rle_trans; [exact A|apply Rmin_r]|auto].
Qed.
Lemma minOver_le xs x : In x xs -> minOver xs <= x.
Proof. destruct xs as [|y r]; [intros []|]. unfold minOver. destruct (foldmin_le r y). intros [E|I]; [subst; auto|auto]. Qed.
Theorem C157_unprinted_largest : forall ranks l mb, In mb ranks -> fst (report ranks l) <= fst (residual mb l).
Proof. intros. unfold report. cbn [fst]. apply minOver_le. apply in_map_iff. eauto. Qed.
Definition oneCell (v : R) : rblock := mkRB (mkDims 2 2 2) 1 (fun _ _ _ _ => v) (fun _ _ _ _ => 0).
Definition oneTree (l : Z) : rtree := RJoin (RCell RInit (1, 1, 1)%Z) RInit.
Definition twoRanks : ranksOf := [[(oneCell 3, oneTree)]; [(oneCell (-4), oneTree)]].
Lemma twoRanks_once l : eachCellOnce twoRanks l.
Proof.
  intros mb b t A B. assert (T : t = oneTree /\ rb_d b = mkDims 2 2 2 /\ rb_ng b = 1%Z) by (destruct A as [<- |[<- |[]]]; destruct B as [E|[]]; injection E as <- <-; auto).
  destruct T as (-> & -> & ->). split.
  - intros i j k. cbn [oneTree leaves app In]. unfold interior. cbn [ni nj nk]. split; [intros [E|[]]; injection E as <- <- <-; lia|]. intros. left. f_equal; [f_equal|]; lia.
  - cbn. constructor; [intros []|constructor].
Qed.
Example C157_nonvacuous : eachCellOnce twoRanks 0 /\ snd (report twoRanks 0) = 5 /\ fst (report twoRanks 0) = 3 /\ In (oneCell (-4)) (allBlocks twoRanks) /\ Rabs (changeOf (oneCell (-4)) 0 1 1 1) = 4 /\
  stepPrints 6 20 10 (fun _ => twoRanks) <> [].
Proof.
  pose proof (twoRanks_once 0) as H. split; [auto|]. split; [|split; [|split; [|split]]].
  - rewrite (C157_printed_number _ _ H). unfold totalSquares, allBlocks, twoRanks. cbn [concat map fst app fold_right]. unfold blockSquares, sum3, sumZ, oneCell. cbn [rb_d rb_ng ni nj nk fst snd].
    change (zrange 1 (1 + 2 - 1)) with [1%Z]. cbn [map fold_right]. unfold changeOf. cbn [rb_q rb_q0]. replace (_ + _) with (5 * 5) by ring. apply sqrt_square. lra.
  - unfold report, residual, twoRanks, oneTree. cbn [map fold_left reduceRes fst snd minOver]. cbv zeta. cbn [fst snd]. unfold res, oneCell. cbn [rb_q rb_q0]. pose proof lowest_neg.
    replace (Rabs (3 - 0)) with 3 by (rewrite Rabs_right; lra). replace (Rabs (-4 - 0)) with 4 by (rewrite Rabs_left; lra).
    rewrite !(Rmax_left 3 lowest), !(Rmax_left 4 lowest), (Rmax_left 3 0), (Rmax_left 4 0), Rmin_left by lra. reflexivity.
  - cbn. auto.
  - unfold changeOf, oneCell. cbn [rb_q rb_q0]. rewrite Rabs_left; lra.
  - rewrite C157_twenty_lines by reflexivity. discriminate.
Qed.
Print Assumptions C157_printed_number.
