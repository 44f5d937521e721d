(** Lemmas for C116: the periodic pass over one block, and over all blocks. *)
From Coq Require Import Reals ZArith String Ascii List Bool Lia Lra.
From Verif Require Import M_Topology S_Topology L_Topology M_Halo S_Halo L_Halo1 L_Halo3 L_Halo6 M_Grid S_Grid L_Grid3 M_Unify S_Unify.
From Verif Require L_Grid4.
Import ListNotations.
Open Scope Z_scope.

(** ** The motion of a face *)
Lemma motion_unique f T U : motion f T -> motion f U -> T = U.
Proof.
  intros A B.
  destruct A as [N|a s E Ea Es|a s E Ea Es|a s E Ea Es|a s E Ea Es];
  destruct B as [N'|a' s' E' Ea' Es'|a' s' E' Ea' Es'|a' s' E' Ea' Es'|a' s' E' Ea' Es'];
    try reflexivity; try congruence;
    try (exfalso; apply N; rewrite E'; cbn; tauto); try (exfalso; apply N'; rewrite E; cbn; tauto).
Qed.

Lemma rot_turned u th v : matVec (rotMatrix u th) v = turned u th v.
Proof.
  destruct u as [[ux uy] uz], v as [[a b] c]. unfold matVec, rotMatrix, turned, cross, dot, vadd, vscale, vx, vy, vz.
  cbn [fst snd]. repeat match goal with |- (_, _) = (_, _) => f_equal end; ring.
Qed.

Lemma faceMove_motion f : wellTyped f -> exists T U, faceMove f = Some T /\ motion f U /\ forall v, T v = U v.
Proof.
  intros [HB HP].
  assert (G: forall t, bcType (gf_face f) = t -> String.prefix "periodic" t = false ->
     exists T U, faceMove f = Some T /\ motion f U /\ forall v, T v = U v).
  { intros t E P. exists (fun v => v), (fun v => v). unfold faceMove. rewrite E, P. split; [reflexivity|]. split; [|reflexivity].
    constructor. rewrite E. intros [<-|[<-|[<-|[<-|[]]]]]; discriminate P. }
  unfold boundaryTypes in HB. cbn [In] in HB.
  repeat (destruct HB as [HB|HB]; [symmetry in HB; try (exact (G _ HB eq_refl))|]); [| | | |destruct HB];
  (rewrite HB in HP; destruct (HP eq_refl) as (HA & HS & _);
   destruct (gf_axis f) as [a|] eqn:Ea; [|congruence]; destruct (gf_span f) as [s|] eqn:Es; [|congruence];
   unfold faceMove; rewrite HB, Ea, Es; eexists; eexists; (split; [reflexivity|])).
  - split; [eapply m_transLow; eauto|]. intros v. unfold translate. apply vec_eq; destruct a as [[a0 a1] a2], v as [[v0 v1] v2];
      unfold vadd, vscale, vx, vy, vz; cbn [fst snd]; ring.
  - split; [eapply m_transHigh; eauto|]. intros v. unfold translate. apply vec_eq; destruct a as [[a0 a1] a2], v as [[v0 v1] v2];
      unfold vadd, vscale, vx, vy, vz; cbn [fst snd]; ring.
  - split; [eapply m_rotLow; eauto|]. intros v. apply rot_turned.
  - split; [eapply m_rotHigh; eauto|]. intros v. apply rot_turned.
Qed.

Definition mv (f : gface) : vec -> vec := match faceMove f with Some T => T | None => fun v => v end.
Lemma mv_motion f T v : wellTyped f -> motion f T -> mv f v = T v.
Proof.
  intros W M. destruct (faceMove_motion f W) as (T0 & U & E & MU & H). unfold mv. rewrite E, H.
  now rewrite (motion_unique f T U M MU).
Qed.
Lemma mv_has f : wellTyped f -> exists T, motion f T /\ forall v, mv f v = T v.
Proof. intros W. destruct (faceMove_motion f W) as (T0 & U & E & MU & H). exists U. split; auto. intros v. now apply mv_motion. Qed.

(** ** One face *)
Definition hit (ng : Z) (d : dims) (n : Z) (p : pt) : bool := existsb (Z.eqb (co p (ax_of n))) (s0Slices n d ng).

Lemma s0_spec n d ng : 1 <= n <= 6 -> 0 < ng ->
  NoDup (s0Slices n d ng) /\ forall p, In (co p (ax_of n)) (s0Slices n d ng) <-> inHalo KNode ng d (face_saxis n) p.
Proof.
  intros R G. apply six_range in R. simpl in R.
  assert (NS: NoDup (rev (zrange 0 ng))) by (apply NoDup_rev, L_Grid1.zrange_NoDup).
  assert (IS: forall x, In x (rev (zrange 0 ng)) <-> 0 <= x < ng) by (intros x; rewrite <- in_rev, zrange_in; tauto).
  assert (NL: forall N, NoDup (map (fun i => N + i) (zrange (- ng) 0))).
  { intros N. rewrite zrange_map_add. apply L_Grid1.zrange_NoDup. }
  assert (IL: forall N x, In x (map (fun i => N + i) (zrange (- ng) 0)) <-> N - ng <= x < N).
  { intros N x. rewrite zrange_map_add, zrange_in. lia. }
  destruct R as [<-|[<-|[<-|[<-|[<-|[<-|[]]]]]]]; cbn [s0Slices]; (split; [auto|]); intros p;
    rewrite ?IS, ?IL; unfold inHalo, ax_of; cbn [face_saxis fst snd dim co]; lia.
Qed.

Lemma hit_iff ng d n p s : 1 <= n <= 6 -> 0 < ng -> outward n s -> hit ng d n p = true <-> inHalo KNode ng d s p.
Proof.
  intros R G O. apply outward_range in O as [_ ->]. destruct (s0_spec n d ng R G) as [_ H]. rewrite <- H.
  unfold hit. rewrite existsb_exists. split; [intros (x & Hx & E); apply Z.eqb_eq in E; now subst|].
  intros Hx. exists (co p (ax_of n)). split; auto. apply Z.eqb_refl.
Qed.

Lemma moveSlice_at n T x s p : 1 <= n <= 6 ->
  at3 (moveSlice n T x s) p = if co p (ax_of n) =? s then T (at3 x p) else at3 x p.
Proof.
  intros R. apply six_range in R. simpl in R. destruct p as [[i j] k].
  destruct R as [<-|[<-|[<-|[<-|[<-|[<-|[]]]]]]]; reflexivity.
Qed.

Lemma moveSlices_at n T p : 1 <= n <= 6 -> forall l x, NoDup l ->
  at3 (fold_left (moveSlice n T) l x) p = if existsb (Z.eqb (co p (ax_of n))) l then T (at3 x p) else at3 x p.
Proof.
  intros R. induction l as [|s l IH]; intros x ND; [reflexivity|].
  inversion ND as [|? ? Hn ND']; subst. cbn [fold_left existsb]. rewrite IH by auto. rewrite moveSlice_at by auto.
  destruct (Z.eqb_spec (co p (ax_of n)) s) as [->|N]; cbn [orb]; [|reflexivity].
  destruct (existsb (Z.eqb s) l) eqn:X; [|reflexivity].
  apply existsb_exists in X as (y & Hy & E). apply Z.eqb_eq in E. subst y. contradiction.
Qed.

Lemma moveFace_at ng d x f : 0 < ng -> 1 <= nface (gf_face f) <= 6 -> wellTyped f ->
  exists x', moveFace ng d (Some x) f = Some x' /\
    forall p, at3 x' p = if hit ng d (nface (gf_face f)) p then mv f (at3 x p) else at3 x p.
Proof.
  intros G R W. destruct (faceMove_motion f W) as (T & U & E & _). unfold moveFace, mv. rewrite E.
  eexists. split; [reflexivity|]. intros p. apply moveSlices_at; auto. now apply s0_spec.
Qed.

(** ** One block *)
Definition passed (ng : Z) (d : dims) (p : pt) (fs : list gface) (v : vec) : vec :=
  fold_left (fun v f => if hit ng d (nface (gf_face f)) p then mv f v else v) fs v.

Lemma moveFaces_at ng d : 0 < ng -> forall fs x,
  (forall f, In f fs -> 1 <= nface (gf_face f) <= 6 /\ wellTyped f) ->
  exists x', fold_left (moveFace ng d) fs (Some x) = Some x' /\ forall p, at3 x' p = passed ng d p fs (at3 x p).
Proof.
  intros G. induction fs as [|f fs IH]; intros x H; [exists x; split; reflexivity|].
  destruct (H f (or_introl eq_refl)) as [R W]. destruct (moveFace_at ng d x f G R W) as (x1 & E1 & V1).
  destruct (IH x1) as (x2 & E2 & V2); [intros g Hg; apply H; now right|].
  exists x2. split; [cbn [fold_left]; now rewrite E1|]. intros p. rewrite V2, V1. reflexivity.
Qed.

Lemma moveBlocks_at ng : 0 < ng -> forall bs s, NoDup (map gb_num bs) ->
  (forall b f, In b bs -> In f (gb_faces b) -> 1 <= nface (gf_face f) <= 6 /\ wellTyped f) ->
  exists s', fold_left (moveBlock ng) bs (Some s) = Some s' /\
    (forall b p, In b bs -> at3 (s' (gb_num b)) p = passed ng (gb_dims b) p (gb_faces b) (at3 (s (gb_num b)) p)) /\
    (forall n, ~ In n (map gb_num bs) -> s' n = s n).
Proof.
  intros G. induction bs as [|b bs IH]; intros s ND H.
  - exists s. split; [reflexivity|]. split; [intros b p []|reflexivity].
  - inversion ND as [|? ? Hn ND']; subst.
    destruct (moveFaces_at ng (gb_dims b) G (gb_faces b) (s (gb_num b))) as (x & E & V).
    { intros f Hf. apply (H b); auto. now left. }
    destruct (IH (fun n => if n =? gb_num b then x else s n) ND') as (s' & E' & V' & U').
    { intros c f Hc Hf. apply (H c); auto. now right. }
    exists s'. split; [cbn [fold_left moveBlock]; rewrite E; exact E'|]. split.
    + intros c p [->|Hc].
      * rewrite (U' (gb_num c)) by auto. rewrite Z.eqb_refl. apply V.
      * rewrite V' by auto. destruct (Z.eqb_spec (gb_num c) (gb_num b)) as [Eq|Ne]; [|reflexivity].
        exfalso. apply Hn. rewrite <- Eq. now apply in_map.
    + intros n Hin. rewrite U'; [|intros X; apply Hin; now right].
      destruct (Z.eqb_spec n (gb_num b)) as [->|Ne]; [|reflexivity]. exfalso. apply Hin. now left.
Qed.

Definition gen (ng : Z) (d : dims) (x : array3 vec) : array3 vec := fun i j k =>
  (generateHalo d ng (fun i j k => vx (x i j k)) i j k,
   generateHalo d ng (fun i j k => vy (x i j k)) i j k,
   generateHalo d ng (fun i j k => vz (x i j k)) i j k).

Lemma haloBlocks_at ng : forall bs s, NoDup (map gb_num bs) ->
  (forall b, In b bs -> fold_left (haloBlock ng) bs s (gb_num b) = gen ng (gb_dims b) (s (gb_num b))) /\
  (forall n, ~ In n (map gb_num bs) -> fold_left (haloBlock ng) bs s n = s n).
Proof.
  induction bs as [|b bs IH]; intros s ND; [split; [intros b []|reflexivity]|].
  inversion ND as [|? ? Hn ND']; subst. cbn [fold_left]. destruct (IH (haloBlock ng s b) ND') as [V U]. split.
  - intros c [->|Hc].
    + rewrite U by auto. unfold haloBlock. rewrite Z.eqb_refl. reflexivity.
    + rewrite V by auto. unfold haloBlock at 1. destruct (Z.eqb_spec (gb_num c) (gb_num b)) as [Eq|Ne]; [|reflexivity].
      exfalso. apply Hn. rewrite <- Eq. now apply in_map.
  - intros n Hin. rewrite U; [|intros X; apply Hin; now right]. unfold haloBlock.
    destruct (Z.eqb_spec n (gb_num b)) as [->|Ne]; [|reflexivity]. exfalso. apply Hin. now left.
Qed.

Lemma gen_interior ng d x p : 0 < ng -> interior KNode ng d p -> at3 (gen ng d x) p = at3 x p.
Proof.
  intros G H. destruct p as [[i j] k].
  assert (IN: interiorNode d ng i j k).
  { pose proof (H I) as H1. pose proof (H J) as H2. pose proof (H S_Topology.K) as H3.
    unfold interiorAt, extent in H1, H2, H3. cbn [co fst snd dim] in *. unfold interiorNode. lia. }
  unfold gen, at3. cbn [fst snd]. rewrite !L_Grid4.halo_interior by (auto; lia).
  apply vec_eq; reflexivity.
Qed.
