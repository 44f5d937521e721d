(** Conservation inside a block; sums over lists of face entries. *)
From Coq Require Import Reals ZArith String List Bool Lia Lra Permutation.
From Verif Require Import M_Topology S_Topology M_Halo S_Halo M_Grid M_Metrics M_Flux S_Sum S_Flux L_Grid1 L_Sum.
Import ListNotations.
Open Scope R_scope.

Lemma inCC_true d ng ne i j k l : inCC d ng ne i j k l = true <->
  (ng <= i < ni d + ng - 1 /\ ng <= j < nj d + ng - 1 /\ ng <= k < nk d + ng - 1 /\ 0 <= l < ne)%Z.
Proof. unfold inCC. rewrite !andb_true_iff, !Z.leb_le, !Z.ltb_lt. lia. Qed.

Lemma block_sum d ng (F G H D : array3 R) : (1 <= ni d)%Z -> (1 <= nj d)%Z -> (1 <= nk d)%Z ->
  (forall i j k, (ng <= i < ni d + ng - 1)%Z -> (ng <= j < nj d + ng - 1)%Z -> (ng <= k < nk d + ng - 1)%Z ->
     D i j k = (F i j k - F (i+1)%Z j k) + (G i j k - G i (j+1)%Z k) + (H i j k - H i j (k+1)%Z)) ->
  sum3 (cellLo ng) (cellHi d ng) D =
  - (sumR (fun s : saxis => (if snd s then 1 else -1) * sum3 (faceLo d ng s) (faceHi d ng s) (match fst s with I => F | J => G | K => H end)) sixDirs).
Proof.
  intros A B C E. unfold cellLo, cellHi. rewrite (sum3_ext _ _ D (fun i j k => (F i j k - F (i+1)%Z j k) + (G i j k - G i (j+1)%Z k) + (H i j k - H i j (k+1)%Z))).
  2: { intros. apply E; cbn [fst snd] in *; lia. }
  rewrite sum3_div by (cbn [fst snd]; lia). cbn [fst snd].
  unfold sumR, sixDirs. cbn [map fold_right fst snd].
  assert (S1: forall x h, sumZ x (x + 1) h = h x).
  { intros x h. rewrite sumZ_snoc, sumZ_empty by lia. lra. }
  unfold sum3, sum2, faceLo, faceHi. cbn [fst snd]. cbn [dim]. rewrite !S1.
  assert (M: forall lo1 hi1 lo2 hi2 (f g : Z -> Z -> R), sumZ lo1 hi1 (fun j => sumZ lo2 hi2 (fun k => f j k - g j k)) = sumZ lo1 hi1 (fun j => sumZ lo2 hi2 (fun k => f j k)) - sumZ lo1 hi1 (fun j => sumZ lo2 hi2 (fun k => g j k))).
  { intros. rewrite <- sumZ_minus. apply sumZ_ext. intros. apply sumZ_minus. }
  rewrite (M _ _ _ _ (fun j k => F ng j k) (fun j k => F (ni d + ng - 1)%Z j k)).
  rewrite (M _ _ _ _ (fun i k => G i ng k) (fun i k => G i (nj d + ng - 1)%Z k)).
  rewrite (M _ _ _ _ (fun i j => H i j ng) (fun i j => H i j (nk d + ng - 1)%Z)).
  assert (N1: sumZ ng (ni d + ng - 1) (fun i => sumZ ng (ng + 1) (fun j => sumZ ng (nk d + ng - 1) (fun k => G i j k))) = sumZ ng (ni d + ng - 1) (fun i => sumZ ng (nk d + ng - 1) (fun k => G i ng k))) by (apply sumZ_ext; intros; apply S1).
  assert (N2: sumZ ng (ni d + ng - 1) (fun i => sumZ (nj d + ng - 1) (nj d + ng - 1 + 1) (fun j => sumZ ng (nk d + ng - 1) (fun k => G i j k))) = sumZ ng (ni d + ng - 1) (fun i => sumZ ng (nk d + ng - 1) (fun k => G i (nj d + ng - 1)%Z k))) by (apply sumZ_ext; intros; apply S1).
  assert (N3: sumZ ng (ni d + ng - 1) (fun i => sumZ ng (nj d + ng - 1) (fun j => sumZ ng (ng + 1) (fun k => H i j k))) = sumZ ng (ni d + ng - 1) (fun i => sumZ ng (nj d + ng - 1) (fun j => H i j ng))) by (apply sumZ_ext; intros; apply sumZ_ext; intros; apply S1).
  assert (N4: sumZ ng (ni d + ng - 1) (fun i => sumZ ng (nj d + ng - 1) (fun j => sumZ (nk d + ng - 1) (nk d + ng - 1 + 1) (fun k => H i j k))) = sumZ ng (ni d + ng - 1) (fun i => sumZ ng (nj d + ng - 1) (fun j => H i j (nk d + ng - 1)%Z))) by (apply sumZ_ext; intros; apply sumZ_ext; intros; apply S1).
  rewrite N1, N2, N3, N4. ring.
Qed.

(** ** lists of index triples *)
Definition pts (l h : pt) : list pt :=
  flat_map (fun i => flat_map (fun j => map (fun k => (i, j, k)) (zrange (snd l) (snd h))) (zrange (snd (fst l)) (snd (fst h)))) (zrange (fst (fst l)) (fst (fst h))).
Lemma sumR_app {A} (f : A -> R) l m : sumR f (l ++ m) = sumR f l + sumR f m.
Proof. unfold sumR. induction l; simpl; [lra|]. rewrite IHl. lra. Qed.
Lemma sumR_flat_map {A B} (f : B -> R) (g : A -> list B) l : sumR f (flat_map g l) = sumR (fun x => sumR f (g x)) l.
Proof. induction l; simpl; [reflexivity|]. rewrite sumR_app, IHl. unfold sumR at 3. simpl. reflexivity. Qed.
Lemma sumR_map {A B} (f : B -> R) (g : A -> B) l : sumR f (map g l) = sumR (fun x => f (g x)) l.
Proof. unfold sumR. now rewrite map_map. Qed.
Lemma sumR_ext {A} (f g : A -> R) l : (forall x, In x l -> f x = g x) -> sumR f l = sumR g l.
Proof. intros H. unfold sumR. f_equal. now apply map_ext_in. Qed.
Lemma sumR_perm {A} (f : A -> R) l m : Permutation l m -> sumR f l = sumR f m.
Proof. induction 1; unfold sumR in *; simpl in *; lra. Qed.
Lemma sumR_scale {A} c (f : A -> R) l : sumR (fun x => c * f x) l = c * sumR f l.
Proof. unfold sumR. induction l; simpl; [lra|]. rewrite IHl. lra. Qed.
Lemma sumR_plus {A} (f g : A -> R) l : sumR (fun x => f x + g x) l = sumR f l + sumR g l.
Proof. unfold sumR. induction l; simpl; [lra|]. rewrite IHl. lra. Qed.

Lemma sum3_pts l h f : sum3 l h f = sumR (at3 f) (pts l h).
Proof.
  unfold pts. rewrite sumR_flat_map. unfold sum3, sumZ at 1. apply sumR_ext. intros i _. rewrite sumR_flat_map. apply sumR_ext. intros j _.
  rewrite sumR_map. reflexivity.
Qed.
Lemma pts_in l h p : In p (pts l h) <-> (forall a, co l a <= co p a < co h a)%Z.
Proof.
  unfold pts. rewrite in_flat_map. split.
  - intros (i & Hi & H). apply in_flat_map in H as (j & Hj & H). apply in_map_iff in H as (k & <- & Hk).
    apply zrange_in in Hi, Hj, Hk. intros []; cbn [co fst snd]; auto.
  - intros H. destruct p as [[i j] k]. pose proof (H I). pose proof (H J). pose proof (H K). cbn [co fst snd] in *.
    exists i. split; [now apply zrange_in|]. apply in_flat_map. exists j. split; [now apply zrange_in|].
    apply in_map_iff. exists k. split; auto. now apply zrange_in.
Qed.
Lemma pts_NoDup l h : NoDup (pts l h).
Proof.
  unfold pts. apply NoDup_flat_map; [apply zrange_NoDup| |].
  - intros i _. apply NoDup_flat_map; [apply zrange_NoDup| |].
    + intros j _. apply FinFun.Injective_map_NoDup; [intros x y H; congruence|apply zrange_NoDup].
    + intros j j' x _ _ H1 H2. apply in_map_iff in H1 as (? & <- & _). apply in_map_iff in H2 as (? & E & _). congruence.
  - intros i i' x _ _ H1 H2. apply in_flat_map in H1 as (j & _ & H1). apply in_flat_map in H2 as (j' & _ & H2).
    apply in_map_iff in H1 as (? & <- & _). apply in_map_iff in H2 as (? & E & _). congruence.
Qed.
Lemma pt_ext (p q : pt) : (forall a, co p a = co q a) -> p = q.
Proof. intros H. destruct p as [[? ?] ?], q as [[? ?] ?]. pose proof (H I). pose proof (H J). pose proof (H K). cbn in *. congruence. Qed.
Definition mkpt (f : axis -> Z) : pt := (f I, f J, f K).
Lemma co_mkpt f a : co (mkpt f) a = f a. Proof. destruct a; reflexivity. Qed.
