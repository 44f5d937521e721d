(** Lemmas: what the boundary condition loops write, layer by layer. *)
From Coq Require Import Reals ZArith List Bool Lia.
From Verif Require Import M_Topology M_Halo M_Grid M_Metrics M_Flux M_FluxKernels M_Bc S_Bc.
Import ListNotations.
Open Scope R_scope.

Lemma face_cases n : isBface n -> (n = 1 \/ n = 2 \/ n = 3 \/ n = 4 \/ n = 5 \/ n = 6)%Z.
Proof. unfold isBface. lia. Qed.
Definition plusOf (n : Z) : Z := if Z.odd n then 1%Z else (-1)%Z.

Lemma idxs d ng n : isBface n ->
  getFaceSliceIdxs d ng n = Some (layerIndex d ng n 0, layerIndex d ng n 1, (if Z.odd n then ng else nodesAlong d n + ng - 1)%Z, plusOf n).
Proof.
  intros H. destruct (face_cases n H) as [->|[->|[->|[->|[->| ->]]]]]; unfold getFaceSliceIdxs, layerIndex, nodesAlong, plusOf; cbn [Z.eqb Z.odd orb Z.leb Z.compare Pos.eqb Pos.compare Pos.compare_cont];
    f_equal; f_equal; f_equal; f_equal; ring.
Qed.
Lemma layer_step d ng n m : isBface n -> layerIndex d ng n (m + 1) = (layerIndex d ng n m + plusOf n)%Z.
Proof. intros _. unfold layerIndex, plusOf. destruct (Z.odd n); ring. Qed.
Lemma layer_inj d ng n m m' : layerIndex d ng n m = layerIndex d ng n m' -> m = m'.
Proof. unfold layerIndex. destruct (Z.odd n); lia. Qed.
Lemma cellAt_layer d ng n m a b : isBface n -> cellAt n (layerIndex d ng n m) a b = layerCell d ng n m a b.
Proof.
  intros H. unfold cellAt, layerCell. destruct (face_cases n H) as [->|[->|[->|[->|[->| ->]]]]]; reflexivity.
Qed.
Lemma slice_layer {A} (f : Z -> Z -> Z -> A) d ng n m a b : isBface n -> slice f n (layerIndex d ng n m) a b = cellOf f (layerCell d ng n m a b).
Proof. intros H. unfold slice. rewrite cellAt_layer by auto. reflexivity. Qed.
Lemma faceCoord_cellAt n s a b : isBface n -> let '(i, j, k) := cellAt n s a b in faceCoord n i j k = (s, a, b).
Proof. intros H. destruct (face_cases n H) as [->|[->|[->|[->|[->| ->]]]]]; reflexivity. Qed.
Lemma cellAt_faceCoord n i j k : isBface n -> let '(s, a, b) := faceCoord n i j k in cellAt n s a b = (i, j, k).
Proof. intros H. destruct (face_cases n H) as [->|[->|[->|[->|[->| ->]]]]]; reflexivity. Qed.
Lemma ext_onBface d ng n a b : isBface n ->
  (let '(e0, e1) := sliceExt d ng n in (0 <= a < e0 /\ 0 <= b < e1)%Z) <-> onBface d ng n a b.
Proof. intros H. destruct (face_cases n H) as [->|[->|[->|[->|[->| ->]]]]]; reflexivity. Qed.

(** one loop over one slice *)
Lemma forSlice_slice d ng n s f blk s' a b : isBface n ->
  (s' = s -> onBface d ng n a b -> slice (forSlice d ng n s f blk) n s' a b = f a b (slice blk n s' a b)) /\
  (s' <> s \/ ~ onBface d ng n a b -> slice (forSlice d ng n s f blk) n s' a b = slice blk n s' a b).
Proof.
  intros H. generalize (faceCoord_cellAt n s' a b H) (ext_onBface d ng n a b H). unfold slice, forSlice.
  destruct (cellAt n s' a b) as [[i j] k]. intros ->. destruct (sliceExt d ng n) as [e0 e1]. intros E.
  assert (B : ((0 <=? a) && (a <? e0) && (0 <=? b) && (b <? e1))%Z%bool = true <-> onBface d ng n a b).
  { rewrite <- E, !andb_true_iff, !Z.leb_le, !Z.ltb_lt. lia. }
  replace ((s' =? s) && (0 <=? a) && (a <? e0) && (0 <=? b) && (b <? e1))%Z%bool
    with ((s' =? s) && ((0 <=? a) && (a <? e0) && (0 <=? b) && (b <? e1)))%Z%bool by (rewrite !andb_assoc; reflexivity).
  destruct ((0 <=? a) && (a <? e0) && (0 <=? b) && (b <? e1))%Z%bool.
  - split.
    + intros -> _. rewrite Z.eqb_refl. reflexivity.
    + intros [N | N]; [ | exfalso; apply N, B; reflexivity]. replace (s' =? s)%Z with false by (symmetry; apply Z.eqb_neq; exact N). reflexivity.
  - rewrite andb_false_r. split; [intros _ O; exfalso; apply B in O; discriminate | reflexivity].
Qed.
Lemma field_slices n (f g : field) : isBface n -> (forall s a b, slice f n s a b = slice g n s a b) -> forall i j k, f i j k = g i j k.
Proof.
  intros H E i j k. generalize (cellAt_faceCoord n i j k H). destruct (faceCoord n i j k) as [[s a] b]. intros C.
  generalize (E s a b). unfold slice. rewrite C. auto.
Qed.

Lemma layers1 plus h s2 body blk : layers 1 plus h s2 body blk = (body h s2 blk, h, s2).
Proof.
  unfold layers. change (zrange 0 1) with [0]%Z. cbn [fold_left]. replace (h - plus * 0)%Z with h by ring. replace (s2 + plus * 0)%Z with s2 by ring. reflexivity.
Qed.
Lemma layers2 plus h s2 body blk : layers 2 plus h s2 body blk = (body (h - plus)%Z (s2 + plus)%Z (body h s2 blk), (h - plus)%Z, (s2 + plus)%Z).
Proof.
  unfold layers. change (zrange 0 2) with [0;1]%Z. cbn [fold_left]. replace (h - plus * 0)%Z with h by ring. replace (s2 + plus * 0)%Z with s2 by ring.
  replace (plus * 1)%Z with plus by ring. reflexivity.
Qed.

(** the loop over the layers, for a body that writes slice h from interior slices s1, s2 and the old value *)
Section Loop.
Variables (d : dims) (ng n : Z) (f : Z -> Z -> cell -> cell -> cell -> cell).
Hypothesis Hn : isBface n.
Hypothesis Hg : (ng = 1 \/ ng = 2)%Z.
Let body (s1 : Z) (h s2 : Z) (blk : field) : field :=
  forSlice d ng n h (fun a b c0 => f a b (slice blk n s1 a b) (slice blk n s2 a b) c0) blk.
(** m2: layer of the slice called s2 for the first halo layer *)
Lemma layers_spec m1 m2 blk : (1 <= m1)%Z -> (1 <= m2)%Z ->
  let r := layers ng (plusOf n) (layerIndex d ng n 0) (layerIndex d ng n m2) (body (layerIndex d ng n m1)) blk in
  (forall g a b, (0 <= g < ng)%Z -> onBface d ng n a b ->
     slice (fst (fst r)) n (layerIndex d ng n (- g)) a b =
     f a b (slice blk n (layerIndex d ng n m1) a b) (slice blk n (layerIndex d ng n (m2 + g)) a b) (slice blk n (layerIndex d ng n (- g)) a b)) /\
  (forall s a b, ~ (exists g, (0 <= g < ng)%Z /\ s = layerIndex d ng n (- g) /\ onBface d ng n a b) -> slice (fst (fst r)) n s a b = slice blk n s a b) /\
  snd (fst r) = layerIndex d ng n (1 - ng) /\ snd r = layerIndex d ng n (m2 + ng - 1).
Proof.
  intros H1 H2 r. subst r.
  assert (Lm : forall m, (layerIndex d ng n m - plusOf n)%Z = layerIndex d ng n (m - 1)).
  { intros m. generalize (layer_step d ng n (m - 1) Hn). replace (m - 1 + 1)%Z with m by ring. lia. }
  assert (Lp : forall m, (layerIndex d ng n m + plusOf n)%Z = layerIndex d ng n (m + 1)) by (intros m; rewrite <- layer_step by auto; reflexivity).
  assert (Ne : forall m m', m <> m' -> layerIndex d ng n m <> layerIndex d ng n m') by (intros m m' N E; apply layer_inj in E; contradiction).
  destruct Hg as [-> | ->].
  - rewrite layers1. cbn [fst snd]. split; [ | split; [ | split]].
    + intros g a b G O. replace g with 0%Z by lia. unfold body. rewrite (proj1 (forSlice_slice d 1 n _ _ _ _ a b Hn)) by auto.
      replace (m2 + 0)%Z with m2 by ring. reflexivity.
    + intros s a b N. unfold body. rewrite (proj2 (forSlice_slice d 1 n _ _ _ _ a b Hn)); [reflexivity | ].
      destruct (Z.eq_dec s (layerIndex d 1 n 0)) as [-> | E]; [right | left; exact E]. intros O. apply N. exists 0%Z. split; [lia | ]. split; [reflexivity | exact O].
    + reflexivity.
    + f_equal. ring.
  - rewrite layers2. cbn [fst snd]. rewrite Lm, Lp. split; [ | split; [ | split]].
    + intros g a b G O. assert (C : (g = 0 \/ g = 1)%Z) by lia. destruct C as [-> | ->].
      * unfold body at 1. rewrite (proj2 (forSlice_slice d 2 n _ _ _ _ a b Hn)) by (left; apply Ne; lia).
        unfold body. rewrite (proj1 (forSlice_slice d 2 n _ _ _ _ a b Hn)) by auto. replace (m2 + 0)%Z with m2 by ring. reflexivity.
      * change (- (1))%Z with (-1)%Z. unfold body at 1. rewrite (proj1 (forSlice_slice d 2 n _ _ _ _ a b Hn)) by auto.
        unfold body. rewrite !(proj2 (forSlice_slice d 2 n _ _ _ _ a b Hn)) by (left; apply Ne; lia). reflexivity.
    + intros s a b N. unfold body.
      assert (N0 : s <> layerIndex d 2 n 0 \/ ~ onBface d 2 n a b).
      { destruct (Z.eq_dec s (layerIndex d 2 n 0)) as [-> | E]; [right | left; exact E]. intros O. apply N. exists 0%Z. split; [lia | ]. split; [reflexivity | exact O]. }
      assert (N1 : s <> layerIndex d 2 n (0 - 1) \/ ~ onBface d 2 n a b).
      { destruct (Z.eq_dec s (layerIndex d 2 n (0 - 1))) as [-> | E]; [right | left; exact E]. intros O. apply N. exists 1%Z. split; [lia | ]. split; [reflexivity | exact O]. }
      rewrite (proj2 (forSlice_slice d 2 n _ _ _ _ a b Hn)) by exact N1. rewrite (proj2 (forSlice_slice d 2 n _ _ _ _ a b Hn)) by exact N0. reflexivity.
    + reflexivity.
    + f_equal. ring.
Qed.

End Loop.
(** the equation of state over the halo of the face *)
Lemma eosOver_slice d ng n (Hn : isBface n) eos (blk : field) s a b : (2 <= ni d)%Z -> (2 <= nj d)%Z -> (2 <= nk d)%Z ->
  (forall g, (0 <= g < ng)%Z -> s = layerIndex d ng n (- g) -> onBface d ng n a b -> slice (eosOver eos d ng n blk) n s a b = eos (slice blk n s a b)) /\
  (~ (exists g, (0 <= g < ng)%Z /\ s = layerIndex d ng n (- g) /\ onBface d ng n a b) -> slice (eosOver eos d ng n blk) n s a b = slice blk n s a b).
Proof.
  intros D1 D2 D3. unfold slice, eosOver, cellAt, layerIndex, nodesAlong, onBface.
  destruct (face_cases n Hn) as [->|[->|[->|[->|[->| ->]]]]]; unfold getRange3, inRange;
    cbn [Z.eqb Pos.eqb orb Z.odd Z.leb Z.compare Pos.compare Pos.compare_cont];
    (split; [ intros g G -> O | intros N ]);
    match goal with |- (if ?c then _ else _) = _ => destruct c eqn:E; try reflexivity end; exfalso;
    rewrite ?andb_true_iff, ?andb_false_iff, ?Z.leb_le, ?Z.ltb_lt, ?Z.leb_gt, ?Z.ltb_ge in E;
    first [ lia | apply N; match goal with |- exists g, _ /\ s = (ng - 1 + - g)%Z /\ _ => exists (ng - 1 - s)%Z | |- exists g, _ /\ s = (?w + ng - 1 - - g)%Z /\ _ => exists (s - w - ng + 1)%Z end; lia ].
Qed.
