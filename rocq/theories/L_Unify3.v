(** Lemmas for C116: induction over the rounds. *)
From Coq Require Import Reals ZArith String Ascii List Bool Lia Lra.
From Verif Require Import M_Topology S_Topology L_Topology M_Halo S_Halo L_Halo1 L_Halo3 L_Halo4 L_Halo5 L_Halo6 M_Grid S_Grid L_Grid3 M_Unify S_Unify L_Unify L_Unify2.
Import ListNotations.
Open Scope Z_scope.

Section unify.
Variables (ng : Z) (w : list (list gblock)).
Hypothesis C : conforming ng (world w).
Hypothesis W : forall b f, In b (List.concat w) -> In f (gb_faces b) -> wellTyped f.
Hypothesis Thick : forall b a, In b (List.concat w) -> ng < dim (gb_dims b) a.

Let G : 0 < ng := proj1 C.
Let six b (H : In b (List.concat w)) : sixFaces b := proj1 (conf_six ng w b C H).
Let dpos b (H : In b (List.concat w)) : forall a, 0 < dim (gb_dims b) a := proj2 (conf_six ng w b C H).

Lemma halo_dec d s p : {inHalo KNode ng d s p} + {~ inHalo KNode ng d s p}.
Proof.
  unfold inHalo. cbv zeta. destruct (snd s).
  - destruct (Z_le_dec (dim d (fst s) + ng) (co p (fst s))), (Z_lt_dec (co p (fst s)) (dim d (fst s) + 2 * ng)); (left; lia) || (right; lia).
  - destruct (Z_le_dec 0 (co p (fst s))), (Z_lt_dec (co p (fst s)) ng); (left; lia) || (right; lia).
Qed.

Lemma halo_opposite b a p : In b (List.concat w) -> inHalo KNode ng (gb_dims b) (a, true) p -> ~ inHalo KNode ng (gb_dims b) (a, false) p.
Proof. intros Hb H1 H2. pose proof (dpos b Hb a). unfold inHalo in *. cbv zeta in *. cbn [fst snd] in *. lia. Qed.

(** one face *)
Definition joinedG b f b' o := In b (List.concat w) /\ In b' (List.concat w) /\ In f (gb_faces b) /\
  joined (world w) (toSBlock b) (gf_face f) (toSBlock b') o.

Lemma interior_miss b p a : In b (List.concat w) -> interiorAt KNode ng (gb_dims b) p a -> forall x, ~ inHalo KNode ng (gb_dims b) (a, x) p.
Proof. intros Hb H x. apply interior_not_halo; auto. Qed.

Lemma passed_face b f s p v : In b (List.concat w) -> In f (gb_faces b) -> outward (nface (gf_face f)) s ->
  inHalo KNode ng (gb_dims b) s p -> (forall a, a <> fst s -> interiorAt KNode ng (gb_dims b) p a) ->
  passed ng (gb_dims b) p (gb_faces b) v = mv f v.
Proof.
  intros Hb Hf O Hh Ht. rewrite passed_axes by auto.
  assert (M: forall a u, a <> fst s -> E ng b p a u = u).
  { intros a u Ha. apply E_miss; auto. apply interior_miss; auto. }
  pose proof (fun u => E_hit ng b p f s u G (six b Hb) (dpos b Hb) Hf O Hh) as X.
  destruct (fst s) eqn:Es.
  - rewrite X. rewrite (M J), (M K) by discriminate. reflexivity.
  - rewrite (M I) by discriminate. rewrite X. rewrite (M K) by discriminate. reflexivity.
  - rewrite (M I), (M J) by discriminate. apply X.
Qed.

Lemma passed_interior b p v : In b (List.concat w) -> interior KNode ng (gb_dims b) p ->
  passed ng (gb_dims b) p (gb_faces b) v = v.
Proof.
  intros Hb Hi. rewrite passed_axes by auto. rewrite !E_miss; auto; apply interior_miss; auto.
Qed.

(** number of connected slabs an entry lies in *)
Definition inSlab (b : gblock) (p : pt) (a : axis) : Prop :=
  exists f s n, In f (gb_faces b) /\ outward (nface (gf_face f)) s /\ fst s = a /\ neighbor (gf_face f) = Some n /\
    inHalo KNode ng (gb_dims b) s p.
Definition slabOf (b : gblock) (p : pt) (a : axis) (f : gface) : bool :=
  onAxis a f && hit ng (gb_dims b) (nface (gf_face f)) p && match neighbor (gf_face f) with Some _ => true | None => false end.
Definition slab (b : gblock) (p : pt) (a : axis) : bool := existsb (slabOf b p a) (gb_faces b).

Lemma axis_eqb_eq a c : axis_eqb a c = true <-> a = c.
Proof. destruct a, c; cbn; split; congruence. Qed.

Lemma slab_iff b p a : In b (List.concat w) -> slab b p a = true <-> inSlab b p a.
Proof.
  intros Hb. unfold slab, inSlab. rewrite existsb_exists. split.
  - intros (f & Hf & H). unfold slabOf in H. apply andb_prop in H as [H H3]. apply andb_prop in H as [H1 H2].
    pose proof (six_range' b f (six b Hb) Hf) as R. apply axis_eqb_eq in H1.
    destruct (neighbor (gf_face f)) as [n|] eqn:En; [|discriminate].
    assert (O: outward (nface (gf_face f)) (face_saxis (nface (gf_face f)))).
    { clear -R. apply six_range in R. simpl in R. destruct R as [<-|[<-|[<-|[<-|[<-|[<-|[]]]]]]]; reflexivity. }
    exists f, (face_saxis (nface (gf_face f))), n. split; [exact Hf|]. split; [exact O|]. split; [exact H1|]. split; [exact En|].
    exact (proj1 (hit_iff ng (gb_dims b) _ p _ R G O) H2).
  - intros (f & s & n & Hf & O & Es & En & Hh). exists f. split; [exact Hf|].
    pose proof (six_range' b f (six b Hb) Hf) as R. unfold slabOf. rewrite En.
    rewrite (proj2 (hit_iff ng (gb_dims b) _ p s R G O) Hh). unfold onAxis, ax_of.
    apply outward_range in O as [_ E']. rewrite <- E', Es. destruct a; reflexivity.
Qed.

Definition b2n (x : bool) : nat := if x then 1%nat else 0%nat.
Definition cnt (b : gblock) (p : pt) : nat := (b2n (slab b p I) + b2n (slab b p J) + b2n (slab b p K))%nat.

Lemma cnt_le3 b p : (cnt b p <= 3)%nat.
Proof. unfold cnt, b2n. destruct (slab b p I), (slab b p J), (slab b p K); lia. Qed.

(** an entry in no connected slab is left alone by the periodic pass *)
Lemma passed_free b p v : In b (List.concat w) -> cnt b p = 0%nat ->
  passed ng (gb_dims b) p (gb_faces b) v = v.
Proof.
  intros Hb H0.
  assert (H: forall f, In f (gb_faces b) -> (if hit ng (gb_dims b) (nface (gf_face f)) p then mv f else fun u => u) = (fun u => u)).
  { intros f Hf. destruct (hit ng (gb_dims b) (nface (gf_face f)) p) eqn:Hh; [|reflexivity].
    destruct (neighbor (gf_face f)) as [n|] eqn:En.
    - exfalso. pose proof (six_range' b f (six b Hb) Hf) as R.
      assert (X: slab b p (ax_of (nface (gf_face f))) = true).
      { unfold slab. apply existsb_exists. exists f. split; [exact Hf|]. unfold slabOf, onAxis. rewrite Hh, En.
        destruct (ax_of (nface (gf_face f))); reflexivity. }
      unfold cnt in H0. destruct (ax_of (nface (gf_face f))); rewrite X in H0; unfold b2n in H0; lia.
    - pose proof (W b f Hb Hf) as [_ Wp]. unfold mv, faceMove.
      destruct (String.prefix "periodic" (bcType (gf_face f))) eqn:P; [|reflexivity].
      exfalso. destruct (Wp eq_refl) as (_ & _ & X). congruence. }
  unfold passed. revert v H. generalize (gb_faces b). intros l.
  induction l as [|f l IH]; intros v H; [reflexivity|]. cbn [fold_left].
  pose proof (H f (or_introl eq_refl)) as Hf. rewrite (IH _ (fun g Hg => H g (or_intror Hg))).
  destruct (hit ng (gb_dims b) (nface (gf_face f)) p); [|reflexivity]. now rewrite Hf.
Qed.

Hypothesis Reg : regular w.
Hypothesis Com : commuting w.

Lemma E_commute b p a c v : In b (List.concat w) -> a <> c -> E ng b p a (E ng b p c v) = E ng b p c (E ng b p a v).
Proof.
  intros Hb Hac.
  assert (D: forall a, (exists f s, In f (gb_faces b) /\ outward (nface (gf_face f)) s /\ fst s = a /\ forall u, E ng b p a u = mv f u)
                   \/ forall u, E ng b p a u = u).
  { intros a0. destruct (halo_dec (gb_dims b) (a0, true) p) as [H|H1];
    [|destruct (halo_dec (gb_dims b) (a0, false) p) as [H|H2]].
    - left. destruct (face_at b (a0, true) (six b Hb)) as (f & Hf & O). exists f, (a0, true). split; [auto|]. split; [auto|]. split; [reflexivity|].
      intros u. apply (E_hit ng b p f (a0, true) u); auto.
    - left. destruct (face_at b (a0, false) (six b Hb)) as (f & Hf & O). exists f, (a0, false). split; [auto|]. split; [auto|]. split; [reflexivity|].
      intros u. apply (E_hit ng b p f (a0, false) u); auto.
    - right. intros u. apply E_miss; auto. intros []; auto. }
  destruct (D a) as [(f & s & Hf & Of & Es & Ef)|Ea]; [|now rewrite !Ea].
  destruct (D c) as [(g & t & Hg & Og & Et & Eg)|Ec]; [|now rewrite !Ec].
  rewrite !Ef, !Eg. destruct (mv_has f (W b f Hb Hf)) as (T & MT & ET). destruct (mv_has g (W b g Hb Hg)) as (U & MU & EU).
  rewrite !ET, !EU. apply (Com b f g s t T U v); auto. congruence.
Qed.

(** the pass over an entry of a slab = the face's motion after the pass over the glued entry *)
Lemma E_glued b f b' o s p p' a v : joinedG b f b' o -> outward (nface (gf_face f)) s -> inHalo KNode ng (gb_dims b) s p ->
  glued ng (gb_dims b) (gb_dims b') s o (pos KNode p) (pos KNode p') -> a <> fst s ->
  E ng b p a v = E ng b' p' (fst (o a)) v.
Proof.
  intros (Hb & Hb' & Hf & Jn) O Hh Gl Na. pose proof Jn as (_ & _ & _ & _ & L & _).
  pose proof (conf_dims ng w b f b' o s C Hb Hb' Hf Jn O) as D.
  assert (X: forall x, inHalo KNode ng (gb_dims b) (a, x) p -> E ng b p a v = E ng b' p' (fst (o a)) v).
  { intros x Hx. destruct (face_at b (a, x) (six b Hb)) as (g & Hg & Og).
    destruct (mv_has g (W b g Hb Hg)) as (T & MT & ET).
    destruct (Reg b f b' o s g (a, x) T Hb Hb' Hf Jn O Hg Og Na MT) as (g' & T' & Hg' & Og' & MT' & _ & ETT).
    change a with (fst (a, x)) at 1. rewrite (E_hit ng b p g (a, x) v G (six b Hb) (dpos b Hb) Hg Og Hx).
    replace (fst (o a)) with (fst (act o (a, x))) by (unfold act; cbn [fst snd]; destruct x; reflexivity).
    rewrite (E_hit ng b' p' g' (act o (a, x)) v G (six b' Hb') (dpos b' Hb') Hg' Og').
    - rewrite ET, (mv_motion g' T' v (W b' g' Hb' Hg') MT'). now rewrite ETT.
    - exact (proj1 (glued_halo ng (gb_dims b) (gb_dims b') s o p p' a x G L Na D Gl) Hx). }
  destruct (halo_dec (gb_dims b) (a, true) p) as [H1|H1]; [eauto|].
  destruct (halo_dec (gb_dims b) (a, false) p) as [H2|H2]; [eauto|].
  rewrite (E_miss ng b p a v); [|auto|auto|intros []; auto]. symmetry. apply E_miss; auto.
  intros y Hy.
  assert (Y: exists x, act o (a, x) = (fst (o a), y)).
  { unfold act. cbn [fst snd]. destruct (o a) as [c z]. cbn [fst snd]. unfold flip. cbn [fst snd].
    destruct z, y; [exists true|exists false|exists false|exists true]; reflexivity. }
  destruct Y as [x Ex]. rewrite <- Ex in Hy.
  apply (glued_halo ng (gb_dims b) (gb_dims b') s o p p' a x G L Na D Gl) in Hy. destruct x; auto.
Qed.

Lemma passed_glued b f b' o s p p' v : joinedG b f b' o -> outward (nface (gf_face f)) s -> inHalo KNode ng (gb_dims b) s p ->
  glued ng (gb_dims b) (gb_dims b') s o (pos KNode p) (pos KNode p') ->
  passed ng (gb_dims b) p (gb_faces b) v = mv f (passed ng (gb_dims b') p' (gb_faces b') v).
Proof.
  intros Jg O Hh Gl. pose proof Jg as (Hb & Hb' & Hf & Jn). pose proof Jn as (_ & _ & _ & _ & L & _).
  rewrite !passed_axes by auto.
  rewrite <- (prod_perm (E ng b' p') o v L) by (intros; apply E_commute; auto).
  pose proof (fun a u Ha => E_glued b f b' o s p p' a u Jg O Hh Gl Ha) as X.
  assert (Y: forall u, E ng b p (fst s) u = mv f u) by (intros u; apply E_hit; auto).
  assert (Z0: forall u, E ng b' p' (fst (o (fst s))) u = u).
  { intros u. apply E_miss; auto. apply interior_miss; auto. apply (glued_across ng (gb_dims b) (gb_dims b') s o p p'); auto. }
  destruct (fst s) eqn:Es.
  - rewrite Z0. rewrite <- (X J), <- (X K) by discriminate. rewrite <- Y.
    rewrite (E_commute b p J I) by (auto; discriminate). rewrite (E_commute b p K I) by (auto; discriminate). reflexivity.
  - rewrite Z0. rewrite <- (X I), <- (X K) by discriminate. rewrite <- Y.
    rewrite (E_commute b p K J) by (auto; discriminate). reflexivity.
  - rewrite Z0. rewrite <- (X I), <- (X J) by discriminate. rewrite <- Y. reflexivity.
Qed.

Lemma slab_glued b f b' o s p p' a : joinedG b f b' o -> outward (nface (gf_face f)) s -> inHalo KNode ng (gb_dims b) s p ->
  glued ng (gb_dims b) (gb_dims b') s o (pos KNode p) (pos KNode p') -> a <> fst s ->
  slab b p a = slab b' p' (fst (o a)).
Proof.
  intros (Hb & Hb' & Hf & Jn) O Hh Gl Na. pose proof Jn as (_ & _ & _ & _ & L & _).
  pose proof (conf_dims ng w b f b' o s C Hb Hb' Hf Jn O) as D.
  apply Bool.eq_true_iff_eq. rewrite !slab_iff by auto. split.
  - intros (g & t & n & Hg & Og & Et & En & Ht). destruct t as [a0 x]. cbn [fst] in Et. subst a0.
    destruct (mv_has g (W b g Hb Hg)) as (T & MT & ET).
    destruct (Reg b f b' o s g (a, x) T Hb Hb' Hf Jn O Hg Og Na MT) as (g' & T' & Hg' & Og' & MT' & Nb & ETT).
    destruct (neighbor (gf_face g')) as [m|] eqn:Em; [|rewrite (proj2 Nb eq_refl) in En; discriminate].
    exists g', (act o (a, x)), m. split; [auto|]. split; [auto|]. split; [unfold act; cbn [fst snd]; destruct x; reflexivity|].
    split; [exact Em|]. exact (proj1 (glued_halo ng (gb_dims b) (gb_dims b') s o p p' a x G L Na D Gl) Ht).
  - intros (g' & t' & n & Hg' & Og' & Et & En & Ht).
    assert (Y: exists x, act o (a, x) = t').
    { destruct t' as [c y]. cbn [fst] in Et. subst c. unfold act. cbn [fst snd]. destruct (o a) as [c z]. cbn [fst snd]. unfold flip. cbn [fst snd].
      destruct z, y; [exists true|exists false|exists false|exists true]; reflexivity. }
    destruct Y as [x <-].
    destruct (face_at b (a, x) (six b Hb)) as (g & Hg & Og). destruct (mv_has g (W b g Hb Hg)) as (T & MT & ET).
    destruct (Reg b f b' o s g (a, x) T Hb Hb' Hf Jn O Hg Og Na MT) as (g2 & T' & Hg2 & Og2 & MT' & Nb & ETT).
    assert (g2 = g').
    { destruct (six_list b' (six b' Hb')) as (f1 & f2 & f3 & f4 & f5 & f6 & El & N1 & N2 & N3 & N4 & N5 & N6).
      assert (En2: nface (gf_face g2) = nface (gf_face g')).
      { apply outward_range in Og2 as [R2 E2]. apply outward_range in Og' as [R3 E3].
        rewrite <- (saxis_face_saxis _ R2), <- (saxis_face_saxis _ R3). congruence. }
      rewrite El in Hg2, Hg'. destruct Hg2 as [<-|[<-|[<-|[<-|[<-|[<-|[]]]]]]]; destruct Hg' as [<-|[<-|[<-|[<-|[<-|[<-|[]]]]]]]; auto; lia. }
    subst g2. destruct (neighbor (gf_face g)) as [m|] eqn:Em; [|rewrite (proj1 Nb eq_refl) in En; discriminate].
    exists g, (a, x), m. split; [auto|]. split; [auto|]. split; [reflexivity|]. split; [exact Em|].
    exact (proj2 (glued_halo ng (gb_dims b) (gb_dims b') s o p p' a x G L Na D Gl) Ht).
Qed.

Lemma b2n_perm (e : axis -> bool) (o : orient) : legal o ->
  (b2n (e (fst (o I))) + b2n (e (fst (o J))) + b2n (e (fst (o K))) = b2n (e I) + b2n (e J) + b2n (e K))%nat.
Proof.
  intros L. assert (A1 := L I J). assert (A2 := L I K). assert (A3 := L J K).
  destruct (fst (o I)) eqn:E1, (fst (o J)) eqn:E2, (fst (o K)) eqn:E3;
    try (discriminate (A1 eq_refl)); try (discriminate (A2 eq_refl)); try (discriminate (A3 eq_refl)); lia.
Qed.

Lemma cnt_glued b f b' o s p p' : joinedG b f b' o -> outward (nface (gf_face f)) s -> inHalo KNode ng (gb_dims b) s p ->
  glued ng (gb_dims b) (gb_dims b') s o (pos KNode p) (pos KNode p') -> cnt b p = S (cnt b' p').
Proof.
  intros Jg O Hh Gl. pose proof Jg as (Hb & Hb' & Hf & Jn). pose proof Jn as (_ & _ & _ & En & L & _).
  pose proof (fun a Ha => slab_glued b f b' o s p p' a Jg O Hh Gl Ha) as X.
  assert (Y: slab b p (fst s) = true).
  { apply slab_iff; auto. exists f, s, (num (toSBlock b')). split; [auto|]. split; [auto|]. split; [reflexivity|]. split; auto. }
  assert (Z0: slab b' p' (fst (o (fst s))) = false).
  { destruct (slab b' p' (fst (o (fst s)))) eqn:Q; [|reflexivity]. exfalso.
    apply slab_iff in Q as (g & t & n & Hg & Og & Et & Eg & Ht); auto. destruct t as [c y]. cbn [fst] in Et. subst c.
    revert Ht. apply interior_miss; auto. apply (glued_across ng (gb_dims b) (gb_dims b') s o p p'); auto. }
  unfold cnt. rewrite <- (b2n_perm (slab b' p') o L).
  destruct (fst s) eqn:Es; rewrite Y, Z0; rewrite ?(X I), ?(X J), ?(X K) by discriminate; cbn [b2n]; lia.
Qed.

(** the highest-numbered connected slab of an entry *)
Lemma top_slab b p : In b (List.concat w) -> cnt b p <> 0%nat ->
  exists f s b' o, joinedG b f b' o /\ outward (nface (gf_face f)) s /\ inHalo KNode ng (gb_dims b) s p /\
   forall f2 B2 o2 s2, joined (world w) (toSBlock b) f2 B2 o2 -> outward (nface f2) s2 -> nface (gf_face f) < nface f2 ->
     ~ inHalo KNode ng (gb_dims b) s2 p.
Proof.
  intros Hb Hc. set (P f := hit ng (gb_dims b) (nface (gf_face f)) p && match neighbor (gf_face f) with Some _ => true | None => false end = true).
  destruct (split_last P (fun f => Bool.bool_dec _ _) (gb_faces b)) as [H|(l1 & f & l2 & El & Pf & Hl)].
  - exfalso. apply Hc. unfold cnt, slab.
    assert (Q: forall a, existsb (slabOf b p a) (gb_faces b) = false).
    { intros a. destruct (existsb (slabOf b p a) (gb_faces b)) eqn:Q; [|reflexivity]. exfalso.
      apply existsb_exists in Q as (f & Hf & Q). apply (H f Hf). unfold P, slabOf in *.
      apply andb_prop in Q as [Q1 Q3]. apply andb_prop in Q1 as [Q1 Q2]. now rewrite Q2, Q3. }
    rewrite !Q. reflexivity.
  - unfold P in Pf. apply andb_prop in Pf as [Ph Pn]. destruct (neighbor (gf_face f)) as [n|] eqn:En; [|discriminate].
    assert (Hf: In f (gb_faces b)) by (rewrite El; apply in_or_app; right; now left).
    destruct (conf_joined ng w b f n C Hb Hf En) as (b' & o & s & Hb' & Jn & O & D).
    exists f, s, b', o. split; [exact (conj Hb (conj Hb' (conj Hf Jn)))|]. split; [exact O|].
    pose proof (six_range' b f (six b Hb) Hf) as R. split; [exact (proj1 (hit_iff ng (gb_dims b) _ p s R G O) Ph)|].
    intros f2 B2 o2 s2 J2 O2 Lt Hh. pose proof J2 as (_ & Hf2 & _ & En2 & _).
    cbn [toSBlock sb_topo faces] in Hf2. apply in_map_iff in Hf2 as (g & <- & Hg).
    assert (Hg2: In g l2).
    { pose proof (six b Hb) as S6. unfold sixFaces in S6. rewrite <- map_map with (f := gf_face) in S6.
      assert (S6' := faces_sorted _ S6). rewrite El, map_app in S6'. cbn [map] in S6'.
      rewrite El in Hg. apply in_app_or in Hg as [Hg|[<-|Hg]]; [|lia|auto]. exfalso.
      assert (nface (gf_face g) < nface (gf_face f)); [|lia].
      revert S6' Hg. clear. induction l1 as [|h l1 IH]; intros S6 Hg; [destruct Hg|].
      cbn [map app] in S6. inversion S6 as [|? ? S6a S6b]; subst. destruct Hg as [->|Hg]; [|auto].
      rewrite Forall_forall in S6b. apply S6b. apply in_or_app. right. now left. }
    apply (Hl g Hg2). unfold P. rewrite En2.
    rewrite (proj2 (hit_iff ng (gb_dims b) _ p s2 (six_range' b g (six b Hb) Hg) G O2) Hh). reflexivity.
Qed.

Variable s0 : state vec.
Variable X : Z -> pt -> vec.
Hypothesis X_free : forall b p, In b (List.concat w) -> inArray KNode ng (gb_dims b) p -> cnt b p = 0%nat ->
  at3 (s0 (gb_num b)) p = X (gb_num b) p.
Hypothesis X_glued : forall b f b' o s p p' T, joinedG b f b' o -> outward (nface (gf_face f)) s -> inHalo KNode ng (gb_dims b) s p ->
  inArray KNode ng (gb_dims b) p ->
  glued ng (gb_dims b) (gb_dims b') s o (pos KNode p) (pos KNode p') -> motion f T -> X (gb_num b) p = T (X (gb_num b') p').

Definition right (r : nat) (s : state vec) : Prop := forall b p, In b (List.concat w) -> inArray KNode ng (gb_dims b) p ->
  (cnt b p <= r)%nat -> passed ng (gb_dims b) p (gb_faces b) (at3 (s (gb_num b)) p) = X (gb_num b) p.

Lemma right_start : right 0 s0.
Proof. intros b p Hb Hp Hc. rewrite passed_free by (auto; lia). apply X_free; auto. lia. Qed.

Lemma right_step cw r s : setupAll ng (world w) = Some cw -> right r s ->
  exists s', communicate ng KNode cw s = Some s' /\ right (S r) s'.
Proof.
  intros Ecw HR. destruct (halo_main ng (world w) KNode C) as (cw' & Ecw' & H). assert (cw' = cw) by congruence. subst cw'.
  destruct (H vec s) as (s' & Ec & H1 & _). exists s'. split; [exact Ec|]. intros b p Hb Hp Hc.
  destruct (H1 (toSBlock b) p (in_world w b Hb) Hp) as [Ha Hn].
  destruct (Nat.eq_dec (cnt b p) 0) as [Z0|NZ].
  - assert (Eq: at3 (s' (gb_num b)) p = at3 (s (gb_num b)) p).
    { apply Hn. intros f B o t Jn O Hh. pose proof Jn as (_ & Hf & _ & En & _). cbn [toSBlock sb_topo faces] in Hf.
      apply in_map_iff in Hf as (g & <- & Hg).
      assert (Q: slab b p (fst t) = true) by (apply slab_iff; auto; exists g, t, (num B); auto).
      unfold cnt in Z0. destruct (fst t); rewrite Q in Z0; unfold b2n in Z0; lia. }
    rewrite Eq. apply HR; auto. lia.
  - destruct (top_slab b p Hb NZ) as (f & t & b' & o & Jg & O & Hh & Htop). pose proof Jg as (_ & Hb' & Hf & Jn).
    destruct (glue_exists ng (world w) KNode _ _ _ _ t p C Jn O Hh Hp) as (p' & Gl & _).
    assert (Eq: at3 (s' (gb_num b)) p = at3 (s (gb_num b')) p').
    { apply (Ha (gf_face f) (toSBlock b') o t p'); auto. }
    cbn [toSBlock sb_dims] in Gl.
    rewrite Eq, (passed_glued b f b' o t p p' _ Jg O Hh Gl).
    pose proof (cnt_glued b f b' o t p p' Jg O Hh Gl) as Cn.
    destruct (mv_has f (W b f Hb Hf)) as (T & MT & ET).
    rewrite HR; [|auto| |lia].
    + rewrite ET. symmetry. eapply X_glued; eauto.
    + pose proof Jn as (_ & _ & _ & _ & L & _).
      apply (glued_inArray ng (gb_dims b) (gb_dims b') t o p p'); auto.
      eapply conf_dims; eauto.
Qed.

Lemma right_rounds cw : setupAll ng (world w) = Some cw -> forall n r s, right r s ->
  exists s', rounds n ng cw s = Some s' /\ right (n + r) s'.
Proof.
  intros Ecw. induction n as [|n IH]; intros r s HR; [exists s; split; auto|].
  destruct (right_step cw r s Ecw HR) as (s1 & E1 & R1). destruct (IH (S r) s1 R1) as (s2 & E2 & R2).
  exists s2. split; [cbn [rounds]; now rewrite E1|]. now replace (S n + r)%nat with (n + S r)%nat by lia.
Qed.
End unify.
