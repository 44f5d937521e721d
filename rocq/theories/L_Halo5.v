(** Existence and interiority of the glued entry; buffer shapes; tags. *)
From Coq Require Import ZArith String Ascii List Bool Lia Sorted Permutation.
From Verif Require Import M_Topology S_Topology L_Topology M_Halo S_Halo L_Halo1 L_Halo2 L_Halo3 L_Halo3b L_Halo4.
Import ListNotations.
Open Scope Z_scope.

(** glued entry of a halo entry *)
Lemma glue_exists ng w k A f B o s p : conforming ng w -> joined w A f B o -> outward (nface f) s ->
  inHalo k ng (sb_dims A) s p -> inArray k ng (sb_dims A) p ->
  exists p', glued ng (sb_dims A) (sb_dims B) s o (pos k p) (pos k p') /\
    ((forall a, a <> fst s -> interiorAt k ng (sb_dims A) p a) ->
     ng < dim (sb_dims B) (fst (o (fst s))) -> interior k ng (sb_dims B) p').
Proof.
  intros C J O Hh Hp. pose proof C as (Hng & ND & _).
  apply outward_range in O as [R ->]. pose proof J as (HA & Hf & HB & En & L & Eo).
  destruct (conf_pair _ _ _ _ _ _ C HA Hf En L Eo) as (B' & g & HB' & EB' & Hg & Eng & Efg & Eog & T).
  assert (B' = B) by (apply (num_inj w); auto). subst B'.
  apply covers_inHalo in Hh. pose proof Hh as Hc. unfold covers in Hc.
  pose proof (idx_glued k ng (sb_dims A) (sb_dims B) (nface f) o (co p (ax_of (nface f)) - lo k ng (sb_dims A) (nface f))
        (co p (tan0 (ax_of (nface f)))) (co p (tan1 (ax_of (nface f)))) Hng L R T ltac:(lia)) as IG.
  unfold recvIdx in IG. unfold lo in IG at 1.
  replace (recvLo k ng (sb_dims A) (face_saxis (nface f)) + (co p (ax_of (nface f)) - recvLo k ng (sb_dims A) (face_saxis (nface f))))
        with (co p (ax_of (nface f))) in IG by lia.
  rewrite asm_co in IG. eexists. split; [exact IG|].
  intros HI HN. apply sendIdx_interior; auto.
  unfold sendFace, ax_of in *. rewrite face_saxis_face.
  unfold flip, act. destruct (snd (face_saxis (nface f))); exact HN.
Qed.

(** every posted receive *)
Definition receives (cw : list (list cblock)) (r : Z) (cb : cblock) (c : commFace) : Prop :=
  atRank cw r cb /\ In c (cb_faces cb).

Lemma recv_complete {V} ng w cw k (st : state V) r cb c :
  conforming ng w -> setupAll ng w = Some cw -> receives cw r cb c ->
  exists rs cbs cs, receives cw rs cbs cs /\
    matches r c (sendMessage ng k rs cs (st (cb_num cbs))) = true /\
    cf_neighbor c = cb_num cbs /\ cf_neighbor cs = cb_num cb /\
    sendShape k cs = sliceShape k c /\
    (forall g, 0 <= g -> (g < nLayers k ng <-> (Z.to_nat g < length (recvSlices k c))%nat)) /\
    m_size (sendMessage ng k rs cs (st (cb_num cbs))) = nLayers k ng * (fst (sliceShape k c) * snd (sliceShape k c)).
Proof.
  intros C E [Hr Hc]. destruct (setupAll_ok ng w C) as [cw' [E' F]].
  assert (cw' = cw) by congruence. subst cw'.
  destruct (atRank_r _ _ _ _ _ F Hr) as [A [HA RA]]. pose proof RA as [EA FA].
  destruct (Forall2_in_r _ _ _ _ FA Hc) as [f [Hf (n & o & En & L & Eo & G)]].
  apply filter_In in Hf as [Hf _].
  pose proof (atRank_in _ _ _ HA) as HAin. fold (blocksOf w) in HAin.
  pose proof (conf_nface _ _ _ _ C HAin Hf) as Rf.
  destruct (conf_pair _ _ _ _ _ _ C HAin Hf En L Eo) as (B & g & HB & EB & Hg & Eng & Efg & Eog & T).
  pose proof C as (Hng & ND & HC & _).
  destruct (atRank_exists w B HB) as [rB HrB].
  destruct (atRank_l _ _ _ _ _ F HrB) as [cbB [HcB [EcB FB]]].
  assert (Hgc: In g (connFaces B)). { apply filter_In. split; auto. unfold hasN. now rewrite Eng. }
  destruct (Forall2_in_l _ _ _ _ FB Hgc) as [c' [Hc' (n' & o2 & En' & L2 & Eo2 & G2)]].
  assert (Hn': n' = num A) by congruence. subst n'.
  assert (X2: forall a, o2 a = inv o a) by (apply show_inj; congruence).
  apply (good_ext _ _ _ _ _ _ _ _ _ X2) in G2. rewrite Efg in G2.
  destruct (neighborOrientation_inv o L) as [_ Linv].
  exists rB, cbB, c'.
  destruct G as (g1 & g2 & g3 & g4 & g5 & g6 & g7 & g8 & g9).
  destruct G2 as (h1 & h2 & h3 & h4 & h5 & h6 & h7 & h8 & h9).
  assert (SH: sendShape k c' = sliceShape k c).
  { unfold sendShape. rewrite h6, h7, g7. apply shape_match; auto. }
  split; [split; auto|]. split; [|split; [congruence|split; [congruence|split; [exact SH|split]]]].
  - unfold matches, sendMessage; simpl. rewrite g3, g5, h3, h4.
    rewrite <- EB. rewrite (commRank_spec w rB B ND HrB), (commRank_spec w r A ND HA).
    rewrite back_face by auto. rewrite !Z.eqb_refl. reflexivity.
  - intros g0 Hg0. rewrite g8, zrange_length. lia.
  - cbn [m_size sendMessage]. rewrite SH. reflexivity.
Qed.

(** tags *)
Definition allFaces (cw : list (list cblock)) : list commFace := flat_map cb_faces (List.concat cw).

Definition bfaces (w : list (list sblock)) : list (sblock * face) :=
  flat_map (fun b => map (pair b) (connFaces b)) (blocksOf w).

Definition RBF (w : list (list sblock)) (ng : Z) (bf : sblock * face) (c : commFace) : Prop :=
  RF (blocksForProcs w) ng (fst bf) (snd bf) c.

Lemma bfaces_F2 ng w cw : Forall2 (Forall2 (RB (blocksForProcs w) ng)) w cw ->
  Forall2 (RBF w ng) (bfaces w) (allFaces cw).
Proof.
  unfold RBF, bfaces, allFaces, blocksOf.
  assert (HR: forall b cb, RB (blocksForProcs w) ng b cb -> Forall2 (RF (blocksForProcs w) ng b) (connFaces b) (cb_faces cb)) by (intros b cb H; apply H).
  revert HR. generalize (RB (blocksForProcs w) ng). intros R HR F. revert HR. 
  generalize (RF (blocksForProcs w) ng). intros R2 HR.
  assert (F': Forall2 R (List.concat w) (List.concat cw)).
  { induction F; simpl; [constructor|]. apply Forall2_app; auto. }
  clear F. induction F' as [|b cb l cl E F IH]; simpl; [constructor|].
  apply Forall2_app; auto. specialize (HR _ _ E). clear -HR.
  induction HR; simpl; constructor; auto.
Qed.

Lemma NoDup_map_rel {A B T} (R : A -> B -> Prop) (t : B -> T) l r :
  Forall2 R l r -> NoDup l ->
  (forall a a' b b', In a l -> In a' l -> R a b -> R a' b' -> t b = t b' -> a = a') ->
  NoDup (map t r).
Proof.
  intros F. induction F as [|a b l r Rab F IH]; intros ND H; simpl; [constructor|].
  inversion ND as [|? ? Hni ND']; subst. constructor.
  - intros Hin. apply in_map_iff in Hin as [b' [Et Hb']].
    destruct (Forall2_in_r _ _ _ _ F Hb') as [a' [Ha' Rab']].
    apply Hni. rewrite (H a a' b b'); auto; [now left|now right].
  - apply IH; auto. intros a0 a1 b0 b1 H0 H1. apply H; now right.
Qed.

Lemma NoDup_map_inv' {A B} (f : A -> B) l : NoDup (map f l) -> NoDup l.
Proof.
  induction l as [|a l IH]; simpl; intros H; [constructor|].
  inversion H; subst. constructor; auto. intros Hin. apply H2. now apply in_map.
Qed.

Lemma bfaces_in w b f : In (b, f) (bfaces w) <-> In b (blocksOf w) /\ In f (connFaces b).
Proof.
  unfold bfaces. rewrite in_flat_map. split.
  - intros [b' [Hb H]]. apply in_map_iff in H as [f' [E Hf]]. injection E as -> ->. auto.
  - intros [Hb Hf]. exists b. split; auto. now apply in_map.
Qed.

Lemma NoDup_app_intro {A} (l1 l2 : list A) : NoDup l1 -> NoDup l2 -> (forall x, In x l1 -> ~ In x l2) -> NoDup (l1 ++ l2).
Proof.
  induction l1 as [|a l1 IH]; simpl; intros H1 H2 H; auto. inversion H1; subst. constructor.
  - intros Hin. apply in_app_or in Hin as [Hin|Hin]; auto. eapply H; eauto.
  - apply IH; auto.
Qed.

Lemma bfaces_NoDup ng w : conforming ng w -> NoDup (bfaces w).
Proof.
  intros C. pose proof C as (_ & ND & HC & _). unfold bfaces.
  apply NoDup_map_inv' in ND.
  assert (G: forall l, NoDup l -> (forall b, In b l -> In b (blocksOf w)) -> NoDup (flat_map (fun b => map (pair b) (connFaces b)) l)).
  { induction l as [|b l IH]; intros N H; simpl; [constructor|]. inversion N; subst.
    apply NoDup_app_intro.
    - apply FinFun.Injective_map_NoDup; [intros x y E; congruence|].
      unfold connFaces. apply NoDup_filter. destruct (HC b (H b (or_introl eq_refl))) as [E _].
      apply (NoDup_map_inv' nface). rewrite E. repeat constructor; simpl; intuition lia.
    - apply IH; auto. intros; apply H; now right.
    - intros x Hx Hx'. apply in_map_iff in Hx as [f [<- Hf]]. apply in_flat_map in Hx' as [b' [Hb' Hx']].
      apply in_map_iff in Hx' as [f' [E _]]. congruence. }
  apply G; auto.
Qed.

Lemma tags_unique ng w cw : conforming ng w -> setupAll ng w = Some cw ->
  NoDup (map cf_tagR (allFaces cw)) /\ NoDup (map cf_tagS (allFaces cw)) /\
  Permutation (map cf_tagR (allFaces cw)) (map cf_tagS (allFaces cw)).
Proof.
  intros C E. destruct (setupAll_ok ng w C) as [cw' [E' F]].
  assert (cw' = cw) by congruence. subst cw'.
  pose proof C as (Hng & ND & HC & _).
  pose proof (bfaces_F2 _ _ _ F) as FF. pose proof (bfaces_NoDup _ _ C) as NB.
  assert (R6: forall b f, In (b, f) (bfaces w) -> In b (blocksOf w) /\ In f (faces (sb_topo b)) /\ 1 <= nface f <= 6).
  { intros b f H. apply bfaces_in in H as [Hb Hf]. apply filter_In in Hf as [Hf _]. split; auto. split; auto. eapply conf_nface; eauto. }
  assert (NR: NoDup (map cf_tagR (allFaces cw))).
  { apply (NoDup_map_rel (RBF w ng) cf_tagR (bfaces w)); auto.
    intros [b f] [b' f'] c c' H H' (n & o & En & L & Eo & G) (n' & o' & En' & L' & Eo' & G') Et. simpl in *.
    destruct G as (_ & _ & _ & _ & g5 & _). destruct G' as (_ & _ & _ & _ & g5' & _).
    apply R6 in H as (Hb & Hf & R). apply R6 in H' as (Hb' & Hf' & R').
    rewrite g5, g5' in Et. assert (E1: num b = num b') by lia. assert (E2: nface f = nface f') by lia.
    assert (b = b') by (apply (num_inj w); auto). subst b'. f_equal.
    apply (nface_inj (faces (sb_topo b))); auto. apply HC; auto. }
  assert (PART: forall b f c, In (b, f) (bfaces w) -> RBF w ng (b, f) c ->
     exists A g, In A (blocksOf w) /\ In g (faces (sb_topo A)) /\ neighbor g = Some (num b) /\ 
       neighbor f = Some (num A) /\ cf_tagS c = num A * 6 + nface g /\
       exists o, legal o /\ orientation f = Some (show o) /\ orientation g = Some (show (inv o)) /\ nface g = sendFace (nface f) o).
  { intros b f c H (n & o & En & L & Eo & G). simpl in *. apply R6 in H as (Hb & Hf & R).
    destruct (conf_pair _ _ _ _ _ _ C Hb Hf En L Eo) as (B & g & HB & EB & Hg & Eng & Efg & Eog & T).
    exists B, g. destruct G as (_ & _ & _ & g4 & _). repeat split; auto; try congruence.
    - rewrite g4, Efg. unfold sendFace. congruence.
    - exists o. auto. }
  assert (NS: NoDup (map cf_tagS (allFaces cw))).
  { apply (NoDup_map_rel (RBF w ng) cf_tagS (bfaces w)); auto.
    intros [b f] [b' f'] c c' H H' G G' Et. simpl in *.
    destruct (PART _ _ _ H G) as (A & g & HA & Hg & Eg & Ef & T & o & L & Eo & Eo1 & Ew).
    destruct (PART _ _ _ H' G') as (A' & g' & HA' & Hg' & Eg' & Ef' & T' & o' & L' & Eo' & Eo1' & Ew').
    pose proof (conf_nface _ _ _ _ C HA Hg) as R1. pose proof (conf_nface _ _ _ _ C HA' Hg') as R2.
    apply R6 in H as (Hb & Hf & R). apply R6 in H' as (Hb' & Hf' & R').
    assert (E1: num A = num A') by lia. assert (E2: nface g = nface g') by lia.
    assert (A = A') by (apply (num_inj w); auto). subst A'.
    assert (g = g') by (apply (nface_inj (faces (sb_topo A))); auto; apply HC; auto). subst g'.
    assert (b = b') by (apply (num_inj w); auto; congruence). subst b'. f_equal.
    apply (nface_inj (faces (sb_topo b))); auto; [apply HC; auto|].
    rewrite <- (back_face (nface f) o), <- (back_face (nface f') o') by auto.
    rewrite <- Ew, <- Ew'. do 2 f_equal. apply act_ext. apply show_inj. congruence. }
  split; auto. split; auto.
  apply NoDup_Permutation_bis; auto.
  - rewrite !map_length. lia.
  - intros t Ht. apply in_map_iff in Ht as [c [<- Hc]].
    destruct (Forall2_in_r _ _ _ _ FF Hc) as [[b f] [Hbf RR]].
    destruct (PART _ _ _ Hbf RR) as (A & g & HA & Hg & Eg & Ef & T & o & L & Eo & Eo1 & Ew).
    apply R6 in Hbf as (Hb & Hf & R).
    destruct RR as (n & o0 & En & L0 & Eo0 & G). cbn [fst snd] in *.
    assert (HAg: In (A, g) (bfaces w)). { apply bfaces_in. split; auto. apply filter_In. split; auto. unfold hasN. now rewrite Eg. }
    destruct (Forall2_in_l _ _ _ _ FF HAg) as [c' [Hc' RR']].
    destruct (PART _ _ _ HAg RR') as (A2 & g2 & HA2 & Hg2 & Eg2 & Ef2 & T2 & o2 & L2 & Eo2 & Eo12 & Ew2).
    apply in_map_iff. exists c'. split; auto. rewrite T2.
    destruct G as (_ & _ & _ & _ & g5 & _). rewrite g5.
    assert (X: forall a, o2 a = inv o a) by (apply show_inj; congruence).
    assert (num A2 = num b) by congruence. rewrite H, Ew2, Ew. f_equal.
    rewrite <- (back_face (nface f) o) at 2 by auto. unfold sendFace at 1. do 2 f_equal. apply act_ext; auto.
Qed.
