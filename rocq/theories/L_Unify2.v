(** Lemmas for C116: glued entries and the three rounds. *)
From Coq Require Import Reals ZArith String Ascii List Bool Lia Lra.
From Verif Require Import M_Topology S_Topology L_Topology M_Halo S_Halo L_Halo1 L_Halo3 L_Halo4 L_Halo5 L_Halo6 M_Grid S_Grid L_Grid3 M_Unify S_Unify L_Unify.
Import ListNotations.
Open Scope Z_scope.

Notation K := S_Topology.K.

(** ** Index geometry of a glued pair *)
Lemma glued_halo ng dA dB s o p p' a x : 0 < ng -> legal o -> a <> fst s ->
  (forall c, c <> fst s -> dim dB (fst (o c)) = dim dA c) ->
  glued ng dA dB s o (pos KNode p) (pos KNode p') ->
  inHalo KNode ng dA (a, x) p <-> inHalo KNode ng dB (act o (a, x)) p'.
Proof.
  intros G L N D H. specialize (H a). cbv zeta in H.
  destruct (axis_eqb a (fst s)) eqn:Ea. { exfalso. apply N. destruct a, (fst s); try discriminate; reflexivity. }
  unfold pos in H. specialize (D a N). unfold inHalo, act. cbv zeta. cbn [fst snd].
  destruct x; destruct (o a) as [c y]; cbn [flip negb fst snd] in *; rewrite D; destruct y; cbn [negb]; lia.
Qed.

Lemma glued_across ng dA dB s o p p' : 0 < ng -> legal o ->
  ng < dim dB (fst (o (fst s))) -> inHalo KNode ng dA s p ->
  glued ng dA dB s o (pos KNode p) (pos KNode p') -> interiorAt KNode ng dB p' (fst (o (fst s))).
Proof.
  intros G L D Hh H. specialize (H (fst s)). cbv zeta in H.
  replace (axis_eqb (fst s) (fst s)) with true in H by (destruct (fst s); reflexivity).
  destruct s as [a x]. unfold inHalo, facePlane, pos, interiorAt, extent, act, flip in *. cbv zeta in *. cbn [fst snd] in *.
  destruct x; destruct (o a) as [c y]; cbn [fst snd negb] in *; destruct y; cbn [negb] in *; lia.
Qed.

Lemma glued_tangent ng dA dB s o p p' a : 0 < ng -> legal o -> a <> fst s ->
  (forall c, c <> fst s -> dim dB (fst (o c)) = dim dA c) ->
  glued ng dA dB s o (pos KNode p) (pos KNode p') ->
  0 <= co p a < extent KNode ng dA a -> 0 <= co p' (fst (o a)) < extent KNode ng dB (fst (o a)).
Proof.
  intros G L N D H Hp. specialize (H a). cbv zeta in H.
  destruct (axis_eqb a (fst s)) eqn:Ea. { exfalso. apply N. destruct a, (fst s); try discriminate; reflexivity. }
  unfold pos in H. specialize (D a N). unfold extent in *. rewrite D. destruct (o a) as [c y]; cbn [fst snd] in *. destruct y; lia.
Qed.

(** a legal orientation reaches every axis *)
Lemma onto (o : orient) c : legal o -> exists a, fst (o a) = c.
Proof.
  intros L. assert (A := L I J). assert (B := L I K). assert (C := L J K).
  destruct (fst (o I)) eqn:E1, (fst (o J)) eqn:E2, (fst (o K)) eqn:E3;
    try (discriminate (A eq_refl)); try (discriminate (B eq_refl)); try (discriminate (C eq_refl));
    destruct c; (exists I; assumption) || (exists J; assumption) || (exists K; assumption).
Qed.

Lemma glued_inArray ng dA dB s o p p' : 0 < ng -> legal o ->
  (forall c, c <> fst s -> dim dB (fst (o c)) = dim dA c) ->
  ng < dim dB (fst (o (fst s))) -> inHalo KNode ng dA s p -> inArray KNode ng dA p ->
  glued ng dA dB s o (pos KNode p) (pos KNode p') -> inArray KNode ng dB p'.
Proof.
  intros G L D T Hh Hp H c. destruct (onto o c L) as [a <-]. destruct (axis_dec a (fst s)) as [->|N].
  - pose proof (glued_across ng dA dB s o p p' G L T Hh H) as X. unfold interiorAt in X. lia.
  - eapply glued_tangent; eauto.
Qed.

(** ** The pass over a block, axis by axis *)
Definition onAxis (a : axis) (f : gface) : bool := axis_eqb (ax_of (nface (gf_face f))) a.
Definition E (ng : Z) (b : gblock) (p : pt) (a : axis) : vec -> vec :=
  passed ng (gb_dims b) p (filter (onAxis a) (gb_faces b)).

Lemma six_list b : sixFaces b -> exists f1 f2 f3 f4 f5 f6, gb_faces b = [f1; f2; f3; f4; f5; f6] /\
  nface (gf_face f1) = 1 /\ nface (gf_face f2) = 2 /\ nface (gf_face f3) = 3 /\ nface (gf_face f4) = 4 /\
  nface (gf_face f5) = 5 /\ nface (gf_face f6) = 6.
Proof.
  unfold sixFaces. destruct (gb_faces b) as [|f1 [|f2 [|f3 [|f4 [|f5 [|f6 [|f7 l]]]]]]]; intros H; try discriminate H.
  cbn [map] in H. exists f1, f2, f3, f4, f5, f6. injection H as H1 H2 H3 H4 H5 H6. repeat split; auto.
Qed.

Lemma face_at b s : sixFaces b -> exists f, In f (gb_faces b) /\ outward (nface (gf_face f)) s.
Proof.
  intros H. destruct (six_list b H) as (f1 & f2 & f3 & f4 & f5 & f6 & -> & N1 & N2 & N3 & N4 & N5 & N6).
  destruct s as [[] []]; [exists f2|exists f1|exists f4|exists f3|exists f6|exists f5];
    (split; [simpl; tauto|rewrite ?N1, ?N2, ?N3, ?N4, ?N5, ?N6; reflexivity]).
Qed.

Lemma six_in b f s : sixFaces b -> In f (gb_faces b) -> outward (nface (gf_face f)) s -> 1 <= nface (gf_face f) <= 6.
Proof. intros _ _ O. now apply outward_range in O. Qed.

Lemma six_range' b f : sixFaces b -> In f (gb_faces b) -> 1 <= nface (gf_face f) <= 6.
Proof.
  intros H Hf. destruct (six_list b H) as (f1 & f2 & f3 & f4 & f5 & f6 & El & N1 & N2 & N3 & N4 & N5 & N6).
  rewrite El in Hf. destruct Hf as [<-|[<-|[<-|[<-|[<-|[<-|[]]]]]]]; lia.
Qed.

Lemma passed_axes ng b p v : sixFaces b ->
  passed ng (gb_dims b) p (gb_faces b) v = E ng b p K (E ng b p J (E ng b p I v)).
Proof.
  intros H. destruct (six_list b H) as (f1 & f2 & f3 & f4 & f5 & f6 & El & N1 & N2 & N3 & N4 & N5 & N6).
  unfold E. rewrite El. cbn [filter]. unfold onAxis. rewrite N1, N2, N3, N4, N5, N6.
  unfold ax_of. cbn [face_saxis fst axis_eqb]. unfold passed. cbn [fold_left]. reflexivity.
Qed.

Lemma E_hit ng b p f s v : 0 < ng -> sixFaces b -> (forall a, 0 < dim (gb_dims b) a) ->
  In f (gb_faces b) -> outward (nface (gf_face f)) s -> inHalo KNode ng (gb_dims b) s p ->
  E ng b p (fst s) v = mv f v.
Proof.
  intros G H D Hf O Hh. pose proof (six_list b H) as (f1 & f2 & f3 & f4 & f5 & f6 & El & N1 & N2 & N3 & N4 & N5 & N6).
  assert (R: 1 <= nface (gf_face f) <= 6) by (eapply six_range'; eauto).
  pose proof (proj2 (hit_iff ng (gb_dims b) _ p s R G O) Hh) as HT.
  pose proof (D (fst s)) as Ds.
  assert (HF: forall n, outward n (flip s) -> hit ng (gb_dims b) n p = false).
  { intros n On. destruct (hit ng (gb_dims b) n p) eqn:X; [|reflexivity]. exfalso.
    assert (1 <= n <= 6) by (now apply outward_range in On).
    apply (hit_iff ng (gb_dims b) n p (flip s)) in X; auto.
    destruct s as [a []]; unfold inHalo, flip in *; cbv zeta in *; cbn [fst snd negb] in *; lia. }
  unfold E. rewrite El in *. cbn [filter]. unfold onAxis. rewrite N1, N2, N3, N4, N5, N6.
  destruct Hf as [<-|[<-|[<-|[<-|[<-|[<-|[]]]]]]];
    (rewrite N1 in * || rewrite N2 in * || rewrite N3 in * || rewrite N4 in * || rewrite N5 in * || rewrite N6 in *);
    cbn [outward] in O; subst s; unfold ax_of; cbn [face_saxis fst axis_eqb]; unfold passed; cbn [fold_left];
    rewrite ?N1, ?N2, ?N3, ?N4, ?N5, ?N6, HT;
    repeat match goal with |- context [hit ng (gb_dims b) ?n p] => rewrite (HF n) by reflexivity end; reflexivity.
Qed.

Lemma E_miss ng b p a v : 0 < ng -> sixFaces b ->
  (forall x, ~ inHalo KNode ng (gb_dims b) (a, x) p) -> E ng b p a v = v.
Proof.
  intros G H Hn. pose proof (six_list b H) as (f1 & f2 & f3 & f4 & f5 & f6 & El & N1 & N2 & N3 & N4 & N5 & N6).
  assert (HF: forall n x, outward n (a, x) -> hit ng (gb_dims b) n p = false).
  { intros n x On. destruct (hit ng (gb_dims b) n p) eqn:X; [|reflexivity]. exfalso.
    assert (1 <= n <= 6) by (now apply outward_range in On).
    apply (hit_iff ng (gb_dims b) n p (a, x)) in X; auto. eapply Hn; eauto. }
  unfold E. rewrite El in *. cbn [filter]. unfold onAxis. rewrite N1, N2, N3, N4, N5, N6.
  unfold ax_of. destruct a; cbn [face_saxis fst axis_eqb]; unfold passed; cbn [fold_left];
    rewrite ?N1, ?N2, ?N3, ?N4, ?N5, ?N6.
  - rewrite (HF 1 false eq_refl), (HF 2 true eq_refl). reflexivity.
  - rewrite (HF 3 false eq_refl), (HF 4 true eq_refl). reflexivity.
  - rewrite (HF 5 false eq_refl), (HF 6 true eq_refl). reflexivity.
Qed.

(** a product of commuting maps over the axes does not depend on the order *)
Lemma prod_perm {V} (e : axis -> V -> V) (o : orient) v : legal o ->
  (forall a c u, a <> c -> e a (e c u) = e c (e a u)) ->
  e (fst (o K)) (e (fst (o J)) (e (fst (o I)) v)) = e K (e J (e I v)).
Proof.
  intros L C. assert (A1 := L I J). assert (A2 := L I K). assert (A3 := L J K).
  pose proof (C I J) as C1. pose proof (C I K) as C2. pose proof (C J K) as C3.
  destruct (fst (o I)) eqn:E1, (fst (o J)) eqn:E2, (fst (o K)) eqn:E3;
    try (discriminate (A1 eq_refl)); try (discriminate (A2 eq_refl)); try (discriminate (A3 eq_refl)).
  - reflexivity.
  - now rewrite (C J K (e I v)) by discriminate.
  - now rewrite (C I J v) by discriminate.
  - rewrite (C I K (e J v)) by discriminate. now rewrite (C I J v) by discriminate.
  - rewrite (C I K v) by discriminate. now rewrite (C J K (e I v)) by discriminate.
  - rewrite (C J K v) by discriminate. rewrite (C I K (e J v)) by discriminate. now rewrite (C I J v) by discriminate.
Qed.

(** ** The blocks of a world *)
Lemma in_world w b : In b (List.concat w) -> In (toSBlock b) (blocksOf (world w)).
Proof. intros H. unfold blocksOf, world. rewrite <- concat_map. now apply in_map. Qed.
Lemma world_in w B : In B (blocksOf (world w)) -> exists b, In b (List.concat w) /\ B = toSBlock b.
Proof. unfold blocksOf, world. rewrite <- concat_map. intros H. apply in_map_iff in H as (b & <- & Hb). eauto. Qed.
Lemma world_nums w : map num (blocksOf (world w)) = map gb_num (List.concat w).
Proof. unfold blocksOf, world. rewrite <- concat_map, map_map. reflexivity. Qed.
Lemma conf_six ng w b : conforming ng (world w) -> In b (List.concat w) -> sixFaces b /\ forall a, 0 < dim (gb_dims b) a.
Proof.
  intros (_ & _ & H & _) Hb. destruct (H (toSBlock b) (in_world w b Hb)) as [H1 H2]. split; [|exact H2].
  unfold sixFaces. rewrite <- map_map with (f := gf_face). exact H1.
Qed.

(** the partner of a connected face *)
Lemma conf_joined ng w b f n : conforming ng (world w) -> In b (List.concat w) -> In f (gb_faces b) ->
  neighbor (gf_face f) = Some n ->
  exists b' o s, In b' (List.concat w) /\ joined (world w) (toSBlock b) (gf_face f) (toSBlock b') o /\
    outward (nface (gf_face f)) s /\ (forall a, a <> fst s -> dim (gb_dims b') (fst (o a)) = dim (gb_dims b) a).
Proof.
  intros (_ & _ & _ & H) Hb Hf En.
  destruct (H (toSBlock b) (gf_face f) n (in_world w b Hb)) as (B & o & g & o' & s & Jn & EB & _ & O & _ & _ & D).
  - cbn [toSBlock sb_topo faces]. now apply in_map.
  - exact En.
  - pose proof Jn as (_ & _ & HB & _). destruct (world_in w B HB) as (b' & Hb' & ->).
    exists b', o, s. split; [exact Hb'|]. split; [exact Jn|]. split; [exact O|]. exact D.
Qed.

Lemma conf_dims ng w b f b' o s : conforming ng (world w) -> In b (List.concat w) -> In b' (List.concat w) -> In f (gb_faces b) ->
  joined (world w) (toSBlock b) (gf_face f) (toSBlock b') o -> outward (nface (gf_face f)) s ->
  forall a, a <> fst s -> dim (gb_dims b') (fst (o a)) = dim (gb_dims b) a.
Proof.
  intros C Hb Hb' Hf Jn O. pose proof C as (_ & ND & _ & H). pose proof Jn as (_ & _ & _ & En & _ & Eo).
  destruct (H (toSBlock b) (gf_face f) _ (in_world w b Hb) ltac:(cbn [toSBlock sb_topo faces]; now apply in_map) En)
    as (B & o1 & g & o' & s1 & J1 & EB & _ & O1 & _ & _ & D).
  assert (B = toSBlock b'). { apply (num_inj (world w)); auto; [apply J1|now apply in_world]. } subst B.
  pose proof J1 as (_ & _ & _ & _ & _ & Eo1).
  assert (X: forall a, o1 a = o a) by (apply show_inj; congruence).
  assert (s1 = s). { apply outward_range in O as [_ ->]. apply outward_range in O1 as [_ ->]. reflexivity. } subst s1.
  intros a Ha. rewrite <- X. apply D; auto.
Qed.
