(** Packaging for the property file. *)
From Coq Require Import ZArith String Ascii List Bool Lia Permutation.
From Verif Require Import M_Topology S_Topology L_Topology M_Halo S_Halo L_Halo1 L_Halo2 L_Halo3 L_Halo3b L_Halo4 L_Halo5.
Import ListNotations.
Open Scope Z_scope.

Lemma axis_dec (a b : axis) : {a = b} + {a <> b}.
Proof. decide equality. Qed.

Lemma interior_not_halo k ng d s p : 0 < ng -> (forall a, 0 < dim d a) -> interiorAt k ng d p (fst s) -> ~ inHalo k ng d s p.
Proof.
  intros Hng Hd H. unfold interiorAt, inHalo, extent in *. cbv zeta.
  destruct s as [a []]; destruct k; cbn [fst snd] in *; lia.
Qed.

Lemma halo_faces ng w k : conforming ng w ->
  exists cw, setupAll ng w = Some cw /\
  forall (V : Type) (st : state V), exists st', communicate ng k cw st = Some st' /\
    forall A f B o s p, joined w A f B o -> outward (nface f) s -> inHalo k ng (sb_dims A) s p ->
      (forall a, a <> fst s -> interiorAt k ng (sb_dims A) p a) -> ng < dim (sb_dims B) (fst (o (fst s))) ->
      exists p', interior k ng (sb_dims B) p' /\
        glued ng (sb_dims A) (sb_dims B) s o (pos k p) (pos k p') /\
        at3 (st' (num A)) p = at3 (st (num B)) p'.
Proof.
  intros C. destruct (halo_main ng w k C) as [cw [E H]]. exists cw. split; auto.
  intros V st. destruct (H V st) as [st' [Ec [H1 _]]]. exists st'. split; auto.
  intros A f B o s p J O Hh HI HN. pose proof J as (HA & _).
  pose proof C as (Hng & ND & HC & _). destruct (HC A HA) as [_ Hd].
  assert (Hp: inArray k ng (sb_dims A) p).
  { intros a. destruct (axis_dec a (fst s)) as [->|N].
    - pose proof (Hd (fst s)). unfold inHalo, extent in *. cbv zeta in Hh. destruct k, (snd s); lia.
    - specialize (HI a N). unfold interiorAt in HI. lia. }
  destruct (glue_exists ng w k A f B o s p C J O Hh Hp) as [p' [G IN]].
  exists p'. split; [apply IN; auto|]. split; auto.
  destruct (H1 A p HA Hp) as [H2 _]. eapply H2; eauto.
  intros f2 B2 o2 s2 J2 O2 Lt Hh2.
  destruct (axis_dec (fst s2) (fst s)) as [Ea|Na].
  - assert (s2 <> s).
    { intros ->. apply outward_range in O as [R1 E1]. apply outward_range in O2 as [R2 E2].
      assert (nface f = nface f2); [|lia]. rewrite <- (saxis_face_saxis _ R1), <- (saxis_face_saxis _ R2). congruence. }
    pose proof (Hd (fst s)). unfold inHalo in Hh, Hh2. cbv zeta in *. rewrite Ea in Hh2.
    destruct s as [a b], s2 as [a2 b2]. cbn [fst snd] in *. subst a2.
    destruct b, b2; try congruence; destruct k; lia.
  - eapply (interior_not_halo k ng (sb_dims A) s2 p); eauto.
Qed.

Lemma halo_untouched ng w k : conforming ng w ->
  exists cw, setupAll ng w = Some cw /\
  forall (V : Type) (st : state V), exists st', communicate ng k cw st = Some st' /\
    (forall A p, In A (blocksOf w) -> inArray k ng (sb_dims A) p ->
      (forall f B o s, joined w A f B o -> outward (nface f) s -> ~ inHalo k ng (sb_dims A) s p) ->
         at3 (st' (num A)) p = at3 (st (num A)) p) /\
    (forall A p, In A (blocksOf w) -> interior k ng (sb_dims A) p ->
         at3 (st' (num A)) p = at3 (st (num A)) p).
Proof.
  intros C. destruct (halo_main ng w k C) as [cw [E H]]. exists cw. split; auto.
  intros V st. destruct (H V st) as [st' [Ec [H1 _]]]. exists st'. split; auto.
  pose proof C as (Hng & ND & HC & _).
  split.
  - intros A p HA Hp Hn. destruct (H1 A p HA Hp) as [_ H2]. auto.
  - intros A p HA Hi. assert (Hp: inArray k ng (sb_dims A) p).
    { intros a. specialize (Hi a). unfold interiorAt in Hi. lia. }
    destruct (H1 A p HA Hp) as [_ H2]. apply H2.
    intros f B o s J O. apply interior_not_halo; auto. apply HC; auto.
Qed.

Lemma find_filter_unique {A} (p : A -> bool) l (t : A -> Z) : NoDup (map t l) -> (forall x y, p x = true -> p y = true -> t x = t y) ->
  (length (filter p l) <= 1)%nat.
Proof.
  intros ND H. induction l as [|a l IH]; simpl; [lia|]. simpl in ND. inversion ND as [|? ? Hni ND']; subst.
  destruct (p a) eqn:Ea; [|auto]. simpl.
  assert (E: filter p l = []); [|rewrite E; simpl; lia].
  destruct (filter p l) as [|b r] eqn:Ef; auto. exfalso.
  assert (Hb: In b (filter p l)) by (rewrite Ef; now left). apply filter_In in Hb as [Hb Pb].
  apply Hni. rewrite (H a b Ea Pb). now apply in_map.
Qed.

Lemma allSends_tags {V} ng k (st : state V) cw : map m_tag (allSends ng k st cw) = map cf_tagS (allFaces cw).
Proof.
  unfold allSends, allFaces. rewrite <- (numbered_snd cw) at 2.
  induction (numbered cw) as [|[r mb] l IH]; simpl; auto.
  rewrite map_app, IH, flat_map_app, map_app. f_equal. unfold rankSends. simpl. clear.
  induction mb as [|b mb IH]; simpl; auto. rewrite !map_app, IH. f_equal. rewrite map_map. reflexivity.
Qed.

Lemma exactly_one ng w cw k : conforming ng w -> setupAll ng w = Some cw ->
  forall (V : Type) (st : state V) r cb c, receives cw r cb c ->
  length (filter (matches r c) (allSends ng k st cw)) = 1%nat.
Proof.
  intros C E V st r cb c Hr.
  destruct (recv_complete ng w cw k st r cb c C E Hr) as (rs & cbs & cs & Hs & M & _).
  destruct (tags_unique ng w cw C E) as (_ & NS & _).
  assert (Le: (length (filter (matches r c) (allSends ng k st cw)) <= 1)%nat).
  { apply (find_filter_unique _ _ m_tag); [rewrite allSends_tags; auto|].
    intros x y Hx Hy. unfold matches in *. rewrite !andb_true_iff, !Z.eqb_eq in *. lia. }
  assert (In (sendMessage ng k rs cs (st (cb_num cbs))) (filter (matches r c) (allSends ng k st cw))).
  { apply filter_In. split; auto. apply allSends_in. exists rs, cbs, cs. destruct Hs. auto. }
  destruct (filter (matches r c) (allSends ng k st cw)); [destruct H|simpl in *; lia].
Qed.
