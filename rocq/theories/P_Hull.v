(** C148: which points a block is said to contain. *)
From Coq Require Import Reals ZArith List Bool Lra Lia Psatz.
From Verif Require Import M_Interp M_Hull S_Hull P_Interp.
Import ListNotations.
Open Scope R_scope.

Lemma pt_eq (p q : pt) : px p = px q -> py p = py q -> pz p = pz q -> p = q.
Proof. destruct p as [[? ?] ?], q as [[? ?] ?]. unfold px, py, pz. cbn. congruence. Qed.
Ltac coords := unfold along, corner, at3, px, py, pz; cbn [fst snd].
Definition wsum (f : pt -> R) (w : list R) (l : list pt) : R := fold_right Rplus 0 (map (fun ap => fst ap * f (snd ap)) (combine w l)).
Lemma wsum_cons f a w p l : wsum f (a :: w) (p :: l) = a * f p + wsum f w l.
Proof. reflexivity. Qed.
Lemma wsum_zero f w l : (forall a, In a w -> a = 0) -> wsum f w l = 0.
Proof.
  revert l. induction w as [|a w IH]; intros l H; [reflexivity|]. destruct l as [|p l]; [reflexivity|]. rewrite wsum_cons, IH, (H a) by (intros; try apply H; cbn [In]; tauto). lra.
Qed.
Lemma sum_nonneg w : (forall a, In a w -> 0 <= a) -> 0 <= fold_right Rplus 0 w.
Proof. induction w as [|c w IH]; cbn [fold_right]; intros P; [lra|]. pose proof (P c ltac:(now left)). assert (0 <= fold_right Rplus 0 w) by (apply IH; intros a I; apply P; now right). lra. Qed.
Lemma nonneg_zero w : (forall a, In a w -> 0 <= a) -> fold_right Rplus 0 w = 0 -> forall a, In a w -> a = 0.
Proof.
  induction w as [|b w IH]; intros P E a I; [destruct I|]. cbn [fold_right] in E.
  assert (Q : 0 <= fold_right Rplus 0 w) by (apply sum_nonneg; intros; apply P; now right). pose proof (P b ltac:(now left)).
  destruct I as [<-|I]; [lra|]. apply IH; auto; [intros; apply P; now right|lra].
Qed.
(* any convex set that contains the points contains their weighted means *)
Lemma mean_in C l : convexSet C -> (forall p, In p l -> C p) -> forall w s, length w = length l -> (forall a, In a w -> 0 <= a) -> fold_right Rplus 0 w = s -> 0 < s ->
  C (at3 (wsum px w l / s) (wsum py w l / s) (wsum pz w l / s)).
Proof.
  intros Cv. induction l as [|p l IH]; intros M w s L P E S.
  - destruct w; [cbn in E; lra|discriminate].
  - destruct w as [|a w]; [discriminate|]. cbn [length] in L. cbn [fold_right] in E. rewrite !wsum_cons.
    assert (Pw : forall x, In x w -> 0 <= x) by (intros; apply P; now right). pose proof (P a ltac:(now left)) as Pa. pose proof (sum_nonneg w Pw) as Ps.
    assert (Cp : C p) by (apply M; now left).
    destruct (Req_dec (fold_right Rplus 0 w) 0) as [Z|Z].
    + pose proof (nonneg_zero w Pw Z) as Hz. rewrite (wsum_zero px w l Hz), (wsum_zero py w l Hz), (wsum_zero pz w l Hz). replace (at3 _ _ _) with p; [auto|]. destruct p as [[p1 p2] p3]. apply pt_eq; coords; rewrite <- E, Z; field; lra.
    + pose proof (IH ltac:(intros; apply M; now right) w (fold_right Rplus 0 w) ltac:(lia) Pw eq_refl ltac:(lra)) as Cm.
      pose proof (Cv p _ (fold_right Rplus 0 w / s) Cp Cm) as Cq. replace (at3 _ _ _) with (along (fold_right Rplus 0 w / s) p (at3 (wsum px w l / fold_right Rplus 0 w) (wsum py w l / fold_right Rplus 0 w) (wsum pz w l / fold_right Rplus 0 w))).
      * apply Cq. split; [apply Rmult_le_pos; [lra|apply Rlt_le, Rinv_0_lt_compat; lra]|]. apply Rmult_le_reg_r with s; [auto|]. unfold Rdiv. rewrite Rmult_assoc, Rinv_l by lra. lra.
      * set (A := wsum px w l). set (B := wsum py w l). set (D := wsum pz w l). clearbody A B D. destruct p as [[p1 p2] p3]. apply pt_eq; coords;
        replace (1 - fold_right Rplus 0 w / s) with (a / s) by (rewrite <- E; field; lra); field; lra.
Qed.
Lemma hull_least C l x : convexSet C -> (forall p, In p l -> C p) -> inHullOf l x -> C x.
Proof.
  intros Cv M (w & L & P & S & X & Y & Z). pose proof (mean_in C l Cv M w 1 L P S ltac:(lra)) as H.
  replace x with (at3 (wsum px w l / 1) (wsum py w l / 1) (wsum pz w l / 1)); [auto|]. apply pt_eq; unfold wsum; cbn; [rewrite X|rewrite Y|rewrite Z]; field.
Qed.
(* the hull is convex and contains the points *)
Lemma wsum_mix f t l : forall w v, length w = length l -> length v = length l ->
  wsum f (map (fun ab => (1 - t) * fst ab + t * snd ab) (combine w v)) l = (1 - t) * wsum f w l + t * wsum f v l.
Proof.
  induction l as [|p l IH]; intros [|a w] [|b v] L1 L2; try discriminate; [unfold wsum; cbn; lra|]. cbn [length] in *. cbn [combine map]. rewrite !wsum_cons, IH by lia. cbn [fst snd]. lra.
Qed.
Lemma sum_mix t : forall w v : list R, length w = length v -> fold_right Rplus 0 (map (fun ab => (1 - t) * fst ab + t * snd ab) (combine w v)) = (1 - t) * fold_right Rplus 0 w + t * fold_right Rplus 0 v.
Proof. induction w as [|a w IH]; intros [|b v] L; try discriminate; cbn [combine map fold_right]; [lra|]. rewrite IH by (cbn in L; lia). cbn [fst snd]. lra. Qed.
Lemma hull_convex l : convexSet (inHullOf l).
Proof.
  intros p q t (w & L & P & S & X & Y & Z) (v & L' & P' & S' & X' & Y' & Z') T.
  exists (map (fun ab => (1 - t) * fst ab + t * snd ab) (combine w v)). split; [rewrite map_length, combine_length, L, L'; lia|]. split; [|split; [|split; [|split]]].
  - intros a I. apply in_map_iff in I as ([c d] & <- & I). cbn [fst snd]. pose proof (P c (in_combine_l _ _ _ _ I)). pose proof (P' d (in_combine_r _ _ _ _ I)). nra.
  - rewrite sum_mix by congruence. rewrite S, S'. lra.
  - change (px (along t p q) = wsum px (map (fun ab => (1 - t) * fst ab + t * snd ab) (combine w v)) l). rewrite wsum_mix by auto. unfold wsum. rewrite <- X, <- X'. reflexivity.
  - change (py (along t p q) = wsum py (map (fun ab => (1 - t) * fst ab + t * snd ab) (combine w v)) l). rewrite wsum_mix by auto. unfold wsum. rewrite <- Y, <- Y'. reflexivity.
  - change (pz (along t p q) = wsum pz (map (fun ab => (1 - t) * fst ab + t * snd ab) (combine w v)) l). rewrite wsum_mix by auto. unfold wsum. rewrite <- Z, <- Z'. reflexivity.
Qed.
Definition zeros (l : list pt) : list R := map (fun _ => 0) l.
Lemma zeros_in l a : In a (zeros l) -> a = 0.
Proof. unfold zeros. intros I. apply in_map_iff in I as (? & <- & _). reflexivity. Qed.
Lemma hull_weights l p : In p l -> exists w, length w = length l /\ (forall a, In a w -> 0 <= a) /\ fold_right Rplus 0 w = 1 /\ forall f, wsum f w l = f p.
Proof.
  induction l as [|q l IH]; intros I0; [destruct I0|]. destruct I0 as [->|I].
  - exists (1 :: zeros l). cbn [length]. unfold zeros at 1. rewrite map_length. repeat split.
    + intros a [<-|I]; [lra|]. apply zeros_in in I. lra.
    + cbn [fold_right]. assert (fold_right Rplus 0 (zeros l) = 0) by (clear; induction l; cbn [zeros map fold_right]; [reflexivity|]; unfold zeros in IHl; rewrite IHl; lra). lra.
    + intros f. rewrite wsum_cons, wsum_zero by apply zeros_in. lra.
  - destruct (IH I) as (w & L & P & S & F). exists (0 :: w). cbn [length fold_right]. repeat split; [lia| |lra|].
    + intros a [<-|J]; [lra|auto].
    + intros f. rewrite wsum_cons, F. lra.
Qed.
Lemma hull_in l p : In p l -> inHullOf l p.
Proof. intros I. destruct (hull_weights l p I) as (w & L & P & S & F). exists w. repeat split; auto; symmetry; apply F. Qed.
Lemma hull_incl l m x : (forall p, In p l -> inHullOf m p) -> inHullOf l x -> inHullOf m x.
Proof. intros I. apply hull_least; [apply hull_convex|auto]. Qed.
(** what is computed is the smallest convex set that contains the chosen points *)
Theorem C148_smallest_convex : forall b x, ptsInBlkBounds b x <-> smallestConvex (cube b) x.
Proof.
  intros b x. split; [intros H C Cv M; eapply hull_least; eauto|]. intros H. apply H; [apply hull_convex|]. intros p. apply hull_in.
Qed.
(* which points are chosen *)
Definition isEnd (n i : Z) : Prop := i = 0%Z \/ i = (n - 1)%Z.
Ltac pick := repeat (first [left; reflexivity | right]).
Lemma cube_spec b p : In p (cube b) <-> exists i j k, markedIndex (h_ni b) i /\ markedIndex (h_nj b) j /\ markedIndex (h_nk b) k /\
  (isEnd (h_ni b) i \/ isEnd (h_nj b) j \/ isEnd (h_nk b) k) /\ p = h_node b i j k.
Proof.
  unfold cube, corners, alongI, alongJ, alongK, isEnd, markedIndex. split.
  - destruct (Z.ltb_spec 4 (h_ni b)), (Z.ltb_spec 4 (h_nj b)), (Z.ltb_spec 4 (h_nk b)); cbn [app In]; intros D;
    repeat (destruct D as [<-|D]; [do 3 eexists; (split; [|split; [|split; [|split; [|reflexivity]]]]); tauto|]); destruct D.
  - intros (i & j & k & I & J & K & E & ->).
    destruct (Z.ltb_spec 4 (h_ni b)), (Z.ltb_spec 4 (h_nj b)), (Z.ltb_spec 4 (h_nk b));
    destruct I as [-> | [-> | [? ->]]]; try lia; destruct J as [-> | [-> | [? ->]]]; try lia; destruct K as [-> | [-> | [? ->]]]; try lia; cbn [app In]; try (pick; fail).
    all: exfalso; clear - E H H0 H1; set (n := h_ni b) in *; set (m := h_nj b) in *; set (o := h_nk b) in *; clearbody n m o; Z.div_mod_to_equations; lia.
Qed.
Lemma spacing_bounds n s : spacing n s -> forall i, (0 <= i < n)%Z -> 0 <= s i <= 1.
Proof.
  intros (S0 & S1 & M).
  assert (U : forall m i j, (0 <= i)%Z -> (j = i + Z.of_nat m)%Z -> (j < n)%Z -> s i <= s j).
  { induction m as [|m IH]; intros i j I E L; [replace j with i by lia; lra|].
    apply Rle_trans with (s (j - 1)%Z); [apply IH; lia|]. replace j with (j - 1 + 1)%Z at 2 by lia. apply M. lia. }
  intros i I. rewrite <- S0 at 1. rewrite <- S1. split; [apply (U (Z.to_nat i)); lia|apply (U (Z.to_nat (n - 1 - i))); lia].
Qed.
(* between two nodes of an edge *)
Lemma spacing_between n s u : (2 <= n)%Z -> spacing n s -> 0 <= u <= 1 -> exists i t, (0 <= i < n - 1)%Z /\ 0 <= t <= 1 /\ u = (1 - t) * s i + t * s (i + 1)%Z.
Proof.
  intros N (S0 & S1 & M) U.
  assert (G : forall m, (Z.of_nat m <= n - 1)%Z -> u <= s (Z.of_nat m) -> (0 < m)%nat -> exists i, (0 <= i < n - 1)%Z /\ s i <= u <= s (i + 1)%Z).
  { induction m as [|m IH]; intros L H P; [lia|]. destruct m as [|m].
    - exists 0%Z. split; [lia|]. rewrite S0. split; [lra|]. exact H.
    - destruct (Rle_dec u (s (Z.of_nat (S m)))) as [A|A]; [apply IH; auto; lia|].
      exists (Z.of_nat (S m)). split; [lia|]. split; [lra|]. replace (Z.of_nat (S m) + 1)%Z with (Z.of_nat (S (S m))) by lia. auto. }
  destruct (G (Z.to_nat (n - 1))) as (i & I & A); [lia|rewrite Z2Nat.id by lia; lra|lia|].
  destruct (Req_dec (s i) (s (i + 1)%Z)) as [E|E].
  - exists i, 0. split; [auto|]. split; lra.
  - exists i, ((u - s i) / (s (i + 1)%Z - s i)). split; [auto|]. split; [|field; lra].
    split; [apply Rmult_le_pos; [lra|apply Rlt_le, Rinv_0_lt_compat; lra]|]. apply Rmult_le_reg_r with (s (i + 1)%Z - s i); [lra|]. unfold Rdiv. rewrite Rmult_assoc, Rinv_l by lra. lra.
Qed.
Section Straight.
Variables (B : hblock) (o a b c : pt).
Hypothesis H : parallelepiped B o a b c.
Definition box (x : pt) : Prop := exists u v w, 0 <= u <= 1 /\ 0 <= v <= 1 /\ 0 <= w <= 1 /\ x = corner o a b c u v w.
Lemma box_convex : convexSet box.
Proof.
  intros p q t (u & v & w & U & V & W & ->) (u' & v' & w' & U' & V' & W' & ->) T.
  exists ((1 - t) * u + t * u'), ((1 - t) * v + t * v'), ((1 - t) * w + t * w'). repeat split; try nra. apply pt_eq; coords; ring.
Qed.
Lemma node_in_box i j k : (0 <= i < h_ni B)%Z -> (0 <= j < h_nj B)%Z -> (0 <= k < h_nk B)%Z -> box (h_node B i j k).
Proof.
  intros I J K. destruct H as (_ & _ & _ & s & t & r & S & T & R & E). exists (s i), (t j), (r k).
  pose proof (spacing_bounds _ _ S i I). pose proof (spacing_bounds _ _ T j J). pose proof (spacing_bounds _ _ R k K). repeat split; try lra. now apply E.
Qed.
Lemma marked_range n i : (2 <= n)%Z -> markedIndex n i -> (0 <= i < n)%Z.
Proof. intros N [-> | [-> | [_ ->]]]; [lia|lia|]. Z.div_mod_to_equations. lia. Qed.
Lemma hull_box x : ptsInBlkBounds B x -> box x.
Proof.
  apply hull_least; [apply box_convex|]. intros p P. apply cube_spec in P as (i & j & k & I & J & K & _ & ->). pose proof H as (N1 & N2 & N3 & _).
  apply node_in_box; apply marked_range; auto.
Qed.
Lemma box_hull x : box x -> ptsInBlkBounds B x.
Proof.
  intros (u & v & w & U & V & W & ->). pose proof H as (N1 & N2 & N3 & s & t & r & (S0 & S1 & _) & (T0 & T1 & _) & (R0 & R1 & _) & E).
  assert (C : forall i j k, isEnd (h_ni B) i -> isEnd (h_nj B) j -> isEnd (h_nk B) k -> ptsInBlkBounds B (corner o a b c (s i) (t j) (r k))).
  { intros i j k I J K. unfold isEnd in *. rewrite <- E by lia. apply hull_in, cube_spec. exists i, j, k. unfold markedIndex, isEnd. tauto. }
  assert (C1 : forall j k, isEnd (h_nj B) j -> isEnd (h_nk B) k -> ptsInBlkBounds B (corner o a b c u (t j) (r k))).
  { intros j k J K. replace (corner o a b c u (t j) (r k)) with (along u (corner o a b c (s 0%Z) (t j) (r k)) (corner o a b c (s (h_ni B - 1)%Z) (t j) (r k))).
    - apply hull_convex; auto; apply C; unfold isEnd; auto.
    - rewrite S0, S1. apply pt_eq; coords; ring. }
  assert (C2 : forall k, isEnd (h_nk B) k -> ptsInBlkBounds B (corner o a b c u v (r k))).
  { intros k K. replace (corner o a b c u v (r k)) with (along v (corner o a b c u (t 0%Z) (r k)) (corner o a b c u (t (h_nj B - 1)%Z) (r k))).
    - apply hull_convex; auto; apply C1; unfold isEnd; auto.
    - rewrite T0, T1. apply pt_eq; coords; ring. }
  replace (corner o a b c u v w) with (along w (corner o a b c u v (r 0%Z)) (corner o a b c u v (r (h_nk B - 1)%Z))).
  - apply hull_convex; auto; apply C2; unfold isEnd; auto.
  - rewrite R0, R1. apply pt_eq; coords; ring.
Qed.
Lemma region_box x : region B x -> box x.
Proof.
  intros (i & j & k & I & J & K & u & v & w & U & V & W & ->). pose proof H as (N1 & N2 & N3 & _). cbv zeta.
  repeat (apply box_convex; auto); apply node_in_box; lia.
Qed.
Lemma box_region x : box x -> region B x.
Proof.
  intros (u & v & w & U & V & W & ->). pose proof H as (N1 & N2 & N3 & s & t & r & S & T & R & E).
  destruct (spacing_between _ _ u N1 S U) as (i & u' & I & U' & Eu). destruct (spacing_between _ _ v N2 T V) as (j & v' & J & V' & Ev). destruct (spacing_between _ _ w N3 R W) as (k & w' & K & W' & Ew).
  exists i, j, k. split; [auto|]. split; [auto|]. split; [auto|]. exists u', v', w'. split; [auto|]. split; [auto|]. split; [auto|]. cbv beta zeta. rewrite !E by lia. rewrite Eu, Ev, Ew.
  apply pt_eq; coords; ring.
Qed.
End Straight.
(** for blocks with straight parallel grid lines the answer is exact *)
Theorem C148_straight : forall b x, straight b -> (ptsInBlkBounds b x <-> region b x).
Proof.
  intros B x (o & a & b & c & H). split.
  - intros P. eapply box_region; eauto. eapply hull_box; eauto.
  - intros P. eapply box_hull; eauto. eapply region_box; eauto.
Qed.
(** and always, for the corners and, where a direction has more than four nodes, the middles of edges and faces *)
Theorem C148_marked : forall b i j k, markedIndex (h_ni b) i -> markedIndex (h_nj b) j -> markedIndex (h_nk b) k ->
  (i = 0 \/ i = h_ni b - 1 \/ j = 0 \/ j = h_nj b - 1 \/ k = 0 \/ k = h_nk b - 1)%Z -> ptsInBlkBounds b (h_node b i j k).
Proof. intros b i j k I J K E. apply hull_in, cube_spec. exists i, j, k. unfold isEnd. tauto. Qed.
(* nodes *)
Lemma in_indices n i : In i (indices n) <-> (0 <= i < n)%Z.
Proof.
  unfold indices. rewrite in_map_iff. split.
  - intros (m & <- & I). apply in_seq in I. lia.
  - intros I. exists (Z.to_nat i). split; [lia|]. apply in_seq. lia.
Qed.
Lemma in_nodes b i j k : (0 <= i < h_ni b)%Z -> (0 <= j < h_nj b)%Z -> (0 <= k < h_nk b)%Z -> In (h_node b i j k) (nodesOf b).
Proof.
  intros I J K. unfold nodesOf. apply in_flat_map. exists i. split; [now apply in_indices|]. apply in_flat_map. exists j. split; [now apply in_indices|]. apply in_map_iff. exists k. split; [reflexivity|now apply in_indices].
Qed.
Definition atLeast2 (b : hblock) : Prop := (2 <= h_ni b /\ 2 <= h_nj b /\ 2 <= h_nk b)%Z.
Lemma coord_convex f (E : forall p q t, f (along t p q) = (1 - t) * f p + t * f q) m M : convexSet (fun x => m <= f x <= M).
Proof. intros p q t P Q T. rewrite E. nra. Qed.
(** a point found lies between the extreme nodes of the block in each coordinate *)
Theorem C148_boxed : forall b x f, atLeast2 b -> ptsInBlkBounds b x -> In f [px; py; pz] -> exists u v, In u (nodesOf b) /\ In v (nodesOf b) /\ f u <= f x <= f v.
Proof.
  intros b x f (N1 & N2 & N3) X F. set (p := h_node b 0%Z 0%Z 0%Z).
  assert (L : forall q, In q (p :: cube b) -> In q (nodesOf b)).
  { intros q [<-|Q]; [apply in_nodes; lia|]. apply cube_spec in Q as (i & j & k & I & J & K & _ & ->). apply in_nodes; apply marked_range; auto. }
  destruct (lo_in f p (cube b)) as (u & Iu & Eu). destruct (hi_in f p (cube b)) as (v & Iv & Ev). exists u, v. split; [auto|]. split; [auto|]. rewrite <- Eu, <- Ev.
  revert X. apply (hull_least (fun x => lo f p (cube b) <= f x <= hi f p (cube b))).
  - apply coord_convex. intros a c t. destruct F as [<-|[<-|[<-|[]]]]; reflexivity.
  - intros q Q. split; [apply lo_le; now right|apply hi_ge; now right].
Qed.
(** moving the block and the points, or measuring in other units, changes nothing *)
Theorem C148_moved : forall A A' b x, affine A -> affine A' -> (forall p, A' (A p) = p) -> (ptsInBlkBounds (mapped A b) (A x) <-> ptsInBlkBounds b x).
Proof.
  intros A A' b x HA HA' Inv.
  assert (M : forall F c y, affine F -> ptsInBlkBounds c y -> ptsInBlkBounds (mapped F c) (F y)).
  { intros F c y HF. apply (hull_least (fun y => ptsInBlkBounds (mapped F c) (F y))).
    - intros p q t P Q T. rewrite HF. now apply hull_convex.
    - intros p P. apply cube_spec in P as (i & j & k & I & J & K & E & ->). apply hull_in, cube_spec. exists i, j, k. cbn [mapped h_ni h_nj h_nk h_node]. tauto. }
  split; [|now apply M]. intros P. apply (M A') in P; auto. rewrite Inv in P. revert P. apply hull_incl. intros p Q. apply cube_spec in Q as (i & j & k & I & J & K & E & ->).
  cbn [mapped h_ni h_nj h_nk h_node] in *. rewrite Inv. apply hull_in, cube_spec. exists i, j, k. tauto.
Qed.
(** nor does the naming of the index directions *)
Theorem C148_swapped : forall b x, (ptsInBlkBounds (swappedIJ b) x <-> ptsInBlkBounds b x) /\ (ptsInBlkBounds (swappedJK b) x <-> ptsInBlkBounds b x).
Proof.
  intros b x. repeat split; apply hull_incl; intros p Q; apply cube_spec in Q as (i & j & k & I & J & K & E & ->); cbn [swappedIJ swappedJK h_ni h_nj h_nk h_node] in *; apply hull_in, cube_spec;
    [exists j, i, k|exists j, i, k|exists i, k, j|exists i, k, j]; cbn [swappedIJ swappedJK h_ni h_nj h_nk h_node]; tauto.
Qed.
(** reversing one changes nothing when its number of nodes is odd or at most four *)
Theorem C148_reversed : forall b x, Z.odd (h_ni b) = true \/ (h_ni b <= 4)%Z -> (ptsInBlkBounds (reversedI b) x <-> ptsInBlkBounds b x).
Proof.
  intros b x O.
  assert (M : forall i, markedIndex (h_ni b) i -> markedIndex (h_ni b) (h_ni b - 1 - i)).
  { intros i. unfold markedIndex. set (n := h_ni b) in *. clearbody n. intros [-> | [-> | [L ->]]]; [right; left; lia|left; lia|]. destruct O as [O|O]; [|lia].
    right. right. split; [auto|]. apply Z.odd_spec in O as (m & ->). Z.div_mod_to_equations. lia. }
  assert (N : forall i, isEnd (h_ni b) i -> isEnd (h_ni b) (h_ni b - 1 - i)) by (intros i; unfold isEnd; lia).
  split; apply hull_incl; intros p Q; apply cube_spec in Q as (i & j & k & I & J & K & E & ->); cbn [reversedI h_ni h_nj h_nk h_node] in *; apply hull_in, cube_spec; exists (h_ni b - 1 - i)%Z, j, k;
    cbn [reversedI h_ni h_nj h_nk h_node]; (split; [auto|split; [auto|split; [auto|split; [destruct E as [E|E]; [left; auto|right; exact E]|]]]]); [reflexivity|]. f_equal. lia.
Qed.
(** ** where it fails *)
(* a block one high and deep, its nodes i raised by h i *)
Definition raised (n : Z) (h : Z -> R) : hblock := mkHb n 2 2 (fun i j k => at3 (IZR i) (IZR j + h i) (IZR k)).
Lemma below_one n h : (forall i, markedIndex n i -> h i <= 0) -> forall x, ptsInBlkBounds (raised n h) x -> py x <= 1.
Proof.
  intros M x. apply (hull_least (fun x => py x <= 1)).
  - intros p q t P Q T. change (py (along t p q)) with ((1 - t) * py p + t * py q). nra.
  - intros p P. apply cube_spec in P as (i & j & k & I & J & K & _ & ->). cbn [raised h_ni h_nj h_nk h_node] in *. unfold at3, py. cbn [fst snd]. pose proof (M i I).
    assert (j <= 1)%Z by (destruct J as [-> | [-> | [J _]]]; lia). apply IZR_le in H0. lra.
Qed.
(** a curved block does not find all the points it contains: not even the centre of one of its cells *)
Theorem C148_missed_refuted : exists b x, atLeast2 b /\ (forall i j k, h_node b i j k = at3 (IZR i) (IZR j + (if ((1 <=? i) && (i <=? 2))%Z then 10 else 0)) (IZR k)) /\
  cellRegion b 1 0 0 x /\ region b x /\ ~ ptsInBlkBounds b x.
Proof.
  set (h := fun i : Z => if ((1 <=? i) && (i <=? 2))%Z then 10 else 0). exists (raised 4 h), (at3 (3/2) (21/2) (1/2)).
  assert (C : cellRegion (raised 4 h) 1 0 0 (at3 (3/2) (21/2) (1/2))).
  { exists (1/2), (1/2), (1/2). repeat split; try lra. cbv beta zeta. cbn [raised h_node]. apply pt_eq; coords; cbn [Z.add Pos.add]; unfold h; cbn [Z.leb andb Z.compare Pos.compare Pos.compare_cont]; lra. }
  split; [unfold atLeast2; cbn; lia|]. split; [reflexivity|]. split; [exact C|]. split.
  - exists 1%Z, 0%Z, 0%Z. cbn [raised h_ni h_nj h_nk]. repeat (split; [lia|]). exact C.
  - intros P. apply below_one in P; [unfold py, at3 in P; cbn [fst snd] in P; lra|]. intros i I. unfold markedIndex in I. unfold h. destruct I as [-> | [-> | [I _]]]; [cbn; lra|cbn; lra|lia].
Qed.
(** and finds points that it does not contain *)
Theorem C148_false_refuted : exists b x, atLeast2 b /\ (forall i j k, h_node b i j k = at3 (IZR i) (IZR j + (if (i =? 1)%Z then 10 else 0)) (IZR k)) /\ ptsInBlkBounds b x /\ ~ region b x.
Proof.
  set (h := fun i : Z => if (i =? 1)%Z then 10 else 0). exists (raised 3 h), (at3 1 (1/2) (1/2)).
  split; [unfold atLeast2; cbn; lia|]. split; [reflexivity|]. split.
  - assert (C : forall i j k, isEnd 3 i -> isEnd 2 j -> isEnd 2 k -> ptsInBlkBounds (raised 3 h) (at3 (IZR i) (IZR j) (IZR k))).
    { intros i j k I J K. replace (at3 (IZR i) (IZR j) (IZR k)) with (h_node (raised 3 h) i j k).
      - apply hull_in, cube_spec. exists i, j, k. cbn [raised h_ni h_nj h_nk]. unfold markedIndex, isEnd in *. tauto.
      - cbn [raised h_node]. unfold h. destruct I as [-> | ->]; cbn [Z.eqb Z.sub Z.add Z.opp Z.pos_sub Pos.pred_double Pos.eqb]; apply pt_eq; coords; lra. }
    replace (at3 1 (1/2) (1/2)) with (along (1/2) (along (1/2) (at3 0 0 0) (at3 2 0 0)) (along (1/2) (at3 0 1 1) (at3 2 1 1))) by (apply pt_eq; coords; lra).
    assert (E : isEnd 3 0 /\ isEnd 3 2 /\ isEnd 2 0 /\ isEnd 2 1) by (unfold isEnd; lia). destruct E as (E1 & E2 & E3 & E4).
    repeat (apply hull_convex; [| |lra]); [apply (C 0 0 0)%Z|apply (C 2 0 0)%Z|apply (C 0 1 1)%Z|apply (C 2 1 1)%Z]; auto.
  - intros (i & j & k & I & J & K & u & v & w & U & V & W & E). cbn [raised h_ni h_nj h_nk] in I, J, K. assert (j = 0%Z) by lia. assert (k = 0%Z) by lia. subst j k.
    assert (Ex := f_equal px E). assert (Ey := f_equal py E). clear E. cbv beta zeta in Ex, Ey. cbn [raised h_node] in Ex, Ey. unfold along, at3, px, py, pz in Ex, Ey. cbn [fst snd] in Ex, Ey.
    assert (Q : i = 0%Z \/ i = 1%Z) by lia. destruct Q as [-> | ->]; unfold h in Ey; cbn [Z.add Pos.add Z.eqb Pos.eqb] in Ex, Ey.
    + assert (Hu : u = 1) by lra. subst u. lra.
    + assert (Hu : u = 0) by lra. subst u. lra.
Qed.
(** with an even number of nodes, more than four, reversing an index direction can change the answer: the node taken for the middle is another one *)
Theorem C148_reversed_refuted : forall n, Z.even n = true -> (4 < n)%Z -> exists b x, h_ni b = n /\ ptsInBlkBounds b x /\ ~ ptsInBlkBounds (reversedI b) x.
Proof.
  intros n E L. apply Z.even_spec in E as (m & ->). set (h := fun i : Z => if (i =? m)%Z then 10 else 0). exists (raised (2 * m) h), (h_node (raised (2 * m) h) m 1 0). split; [reflexivity|].
  assert (D : (2 * m / 2 = m)%Z) by (rewrite Z.mul_comm; apply Z.div_mul; lia). split.
  - apply hull_in, cube_spec. exists m, 1%Z, 0%Z. cbn [raised h_ni h_nj h_nk]. unfold markedIndex, isEnd. rewrite D. split; [right; right; lia|]. split; [right; left; lia|]. split; [left; lia|]. split; [right; left; lia|reflexivity].
  - intros P. assert (Q : py (h_node (raised (2 * m) h) m 1 0) <= 1).
    { revert P. apply (hull_least (fun x => py x <= 1)).
      - intros p q t P Q T. change (py (along t p q)) with ((1 - t) * py p + t * py q). nra.
      - intros p P. apply cube_spec in P as (i & j & k & I & J & K & _ & ->). cbn [reversedI raised h_ni h_nj h_nk h_node] in *. unfold at3, py. cbn [fst snd]. unfold h.
        assert (j <= 1)%Z by (destruct J as [-> | [-> | [J _]]]; lia). apply IZR_le in H. destruct (Z.eqb_spec (2 * m - 1 - i) m) as [F|F]; [exfalso|lra].
        unfold markedIndex in I. rewrite D in I. lia. }
    cbn [raised h_node] in Q. unfold at3, py, h in Q. cbn [fst snd] in Q. rewrite Z.eqb_refl in Q. lra.
Qed.
(** ** what follows for the search of the source blocks (C114) *)
Theorem C148_interpolation : forall (hb : Z -> hblock) (answer : sblock -> pt -> bool) nums verbose mbTo m q to r,
  (forall n, In n nums -> atLeast2 (hb n)) -> (forall n x, answer (asSource hb n) x = true <-> ptsInBlkBounds (hb n) x) ->
  nth_error mbTo m = Some (q, to) -> nth_error (findBounds answer verbose (map (asSource hb) nums) mbTo) m = Some r ->
  (forall n, In n nums -> straight (hb n)) -> forall x n, In x (q :: to) -> In n nums -> region (hb n) x -> exists n', In n' nums /\ In n' r /\ region (hb n') x.
Proof.
  intros hb answer nums verbose mbTo m q to r A2 Ans E1 E2 St x n Ix In_ Rg.
  destruct (C114_covering answer verbose (map (asSource hb) nums) mbTo m q to r) as [_ C]; auto.
  - intros s Is. apply in_map_iff in Is as (n0 & <- & I0). intros y Hy f F. apply Ans in Hy. destruct (C148_boxed _ _ f (A2 _ I0) Hy F) as (u & v & Iu & Iv & B). exists u, v. unfold sb_all. cbn [asSource sb_p sb_pts]. split; [now right|]. split; [now right|auto].
  - destruct (C x (asSource hb n)) as (b' & Ib & Ir & Hb); auto.
    + apply in_map_iff. now exists n.
    + apply Ans, C148_straight; auto.
    + apply in_map_iff in Ib as (n' & <- & I'). exists n'. cbn [asSource sb_num] in Ir. split; [auto|]. split; [auto|]. apply C148_straight; auto. now apply Ans.
Qed.
(** a sheared block of five by three by two unevenly spaced nodes meets the hypotheses *)
Example C148_nonvacuous : let b := mkHb 5 3 2 (fun i j k => at3 (IZR (i * i) / 16 + IZR j / 2) (IZR j / 2) (IZR k)) in
  straight b /\ atLeast2 b /\ region b (at3 (1/2) (1/4) (1/2)) /\ ptsInBlkBounds b (at3 (1/2) (1/4) (1/2)) /\ ~ ptsInBlkBounds b (at3 0 1 0) /\ markedIndex 5 2.
Proof.
  cbv zeta. set (b := mkHb 5 3 2 _).
  assert (P : parallelepiped b (at3 0 0 0) (at3 1 0 0) (at3 1 1 0) (at3 0 0 1)).
  { repeat (split; [cbn; lia|]). exists (fun i => IZR (i * i) / 16), (fun j => IZR j / 2), IZR. unfold spacing. split; [|split; [|split]].
    - cbn [b h_ni]. split; [cbn; lra|]. split; [cbn; lra|]. intros i I. apply Rmult_le_compat_r; [lra|]. apply IZR_le. nia.
    - cbn [b h_nj]. split; [cbn; lra|]. split; [cbn; lra|]. intros i I. apply Rmult_le_compat_r; [lra|]. apply IZR_le. lia.
    - cbn [b h_nk]. split; [reflexivity|]. split; [reflexivity|]. intros i I. apply IZR_le. lia.
    - intros i j k _ _ _. cbn [b h_node]. apply pt_eq; coords; field. }
  assert (R : region b (at3 (1/2) (1/4) (1/2))) by (apply (box_region b _ _ _ _ P); exists (1/4), (1/4), (1/2); repeat split; try lra; apply pt_eq; coords; lra).
  split; [now exists (at3 0 0 0), (at3 1 0 0), (at3 1 1 0), (at3 0 0 1)|]. split; [unfold atLeast2; cbn; lia|]. split; [auto|]. split; [|split].
  - apply C148_straight; [now exists (at3 0 0 0), (at3 1 0 0), (at3 1 1 0), (at3 0 0 1)|auto].
  - intros Q. apply (hull_box b _ _ _ _ P) in Q as (u & v & w & U & V & W & E). assert (E1 := f_equal px E). assert (E2 := f_equal py E). revert E1 E2. coords. intros. lra.
  - right. right. split; [lia|reflexivity].
Qed.
Print Assumptions C148_straight.
Print Assumptions C148_interpolation.
