(** Message matching and the main halo-exchange theorem. *)
From Coq Require Import ZArith String Ascii List Bool Lia Sorted.
From Verif Require Import M_Topology S_Topology L_Topology M_Halo S_Halo L_Halo1 L_Halo2 L_Halo3.
Import ListNotations.
Open Scope Z_scope.

Lemma Forall2_nth {A B} (R : A -> B -> Prop) l r : Forall2 R l r -> forall n,
  (forall a, nth_error l n = Some a -> exists b, nth_error r n = Some b /\ R a b) /\
  (forall b, nth_error r n = Some b -> exists a, nth_error l n = Some a /\ R a b).
Proof.
  induction 1 as [|a b l r Rab F IH]; intros [|n]; simpl; split; intros; try discriminate.
  - injection H as <-. eauto.
  - injection H as <-. eauto.
  - apply IH; auto.
  - apply IH; auto.
Qed.

Lemma atRank_l {A B} (R : A -> B -> Prop) w cw r a : Forall2 (Forall2 R) w cw -> atRank w r a ->
  exists b, atRank cw r b /\ R a b.
Proof.
  intros F [Hr [mb [E H]]]. destruct (Forall2_nth _ _ _ F (Z.to_nat r)) as [G _].
  destruct (G _ E) as [mb' [E' F']]. destruct (Forall2_in_l _ _ _ _ F' H) as [b [Hb Rb]].
  exists b. split; auto. split; auto. eauto.
Qed.
Lemma atRank_r {A B} (R : A -> B -> Prop) w cw r b : Forall2 (Forall2 R) w cw -> atRank cw r b ->
  exists a, atRank w r a /\ R a b.
Proof.
  intros F [Hr [mb [E H]]]. destruct (Forall2_nth _ _ _ F (Z.to_nat r)) as [_ G].
  destruct (G _ E) as [mb' [E' F']]. destruct (Forall2_in_r _ _ _ _ F' H) as [a [Ha Rb]].
  exists a. split; auto. split; auto. eauto.
Qed.
Lemma atRank_in {A} (w : list (list A)) r x : atRank w r x -> In x (List.concat w).
Proof. intros [_ [mb [E H]]]. apply in_concat. exists mb. split; auto. eapply nth_error_In; eauto. Qed.

Lemma allSends_in {V} ng k (st : state V) cw m : In m (allSends ng k st cw) <->
  exists r cb c, atRank cw r cb /\ In c (cb_faces cb) /\ m = sendMessage ng k r c (st (cb_num cb)).
Proof.
  unfold allSends. rewrite in_flat_map. split.
  - intros [[r mb] [H1 H2]]. apply numbered_in in H1 as [Hr E]. unfold rankSends in H2. simpl in H2.
    apply in_flat_map in H2 as [cb [Hb H2]]. apply in_map_iff in H2 as [c [<- Hc]].
    exists r, cb, c. repeat split; eauto.
  - intros (r & cb & c & [Hr [mb [E Hb]]] & Hc & ->). exists (r, mb). split; [apply numbered_in; auto|].
    unfold rankSends. simpl. apply in_flat_map. exists cb. split; auto. apply in_map_iff. eauto.
Qed.

Lemma act_ext o o' s : (forall a, o a = o' a) -> act o s = act o' s.
Proof. intros H. unfold act. now rewrite H. Qed.

Lemma good_ext procs ng nblk d f nb o o' c : (forall a, o a = o' a) -> good procs ng nblk d f nb o c -> good procs ng nblk d f nb o' c.
Proof.
  intros H (G1 & G2 & G3 & G4 & G5 & G6 & G7 & G8 & G9). unfold good.
  rewrite <- (act_ext o o' _ H), <- (orSpec_ext f o o' H), <- (H (ax_of f)). auto 10.
Qed.

Lemma flip_flip s : flip (flip s) = s.
Proof. destruct s as [a []]; reflexivity. Qed.

Lemma back_face f o : legal o -> 1 <= f <= 6 ->
  saxis_face (flip (act (inv o) (face_saxis (sendFace f o)))) = f.
Proof.
  intros L R. unfold sendFace. rewrite face_saxis_face, act_flip, flip_flip, (inv_inverse o L).
  now apply saxis_face_saxis.
Qed.

Lemma sendFace_range f o : 1 <= sendFace f o <= 6.
Proof. apply saxis_face_range. Qed.

(** unpacking conformity *)
Lemma conf_pair ng w A f n o : conforming ng w -> In A (blocksOf w) -> In f (faces (sb_topo A)) ->
  neighbor f = Some n -> legal o -> orientation f = Some (show o) ->
  exists B g, In B (blocksOf w) /\ num B = n /\ In g (faces (sb_topo B)) /\ neighbor g = Some (num A) /\
     nface g = sendFace (nface f) o /\ orientation g = Some (show (inv o)) /\
     tangential_conform (sb_dims A) (sb_dims B) (face_saxis (nface f)) o.
Proof.
  intros C HA Hf En L Eo. pose proof C as (_ & _ & _ & H).
  destruct (H A f n HA Hf En) as (B & o1 & g & o1' & s & J1 & EB & IV & O1 & J2 & O2 & T).
  destruct J1 as (_ & _ & HB & EnB & L1 & Eo1). destruct J2 as (_ & Hg & _ & EnA & L1' & Eo1').
  assert (X: forall a, o1 a = o a) by (apply show_inj; congruence).
  apply outward_range in O1 as [R1 ->]. apply outward_range in O2 as [R2 E2].
  exists B, g. repeat split; auto.
  - unfold sendFace. rewrite <- (act_ext o1 o _ X). rewrite E2. now rewrite saxis_face_saxis.
  - rewrite Eo1'. f_equal. apply show_ext. intros a.
    apply (inverse_unique o1); auto. intros t.
    rewrite <- (inv_inverse o L t) at 2. rewrite (act_ext o1 o _ X). reflexivity.
  - intros a Ha. rewrite <- X. apply T; auto.
Qed.

Lemma msg_found {V} ng w cw k (st : state V) r A cbA f c n o :
  conforming ng w -> Forall2 (Forall2 (RB (blocksForProcs w) ng)) w cw ->
  atRank w r A -> atRank cw r cbA -> RB (blocksForProcs w) ng A cbA ->
  In f (faces (sb_topo A)) -> neighbor f = Some n -> legal o -> orientation f = Some (show o) ->
  good (blocksForProcs w) ng (num A) (sb_dims A) (nface f) n o c ->
  exists B r' c', In B (blocksOf w) /\ num B = n /\
    find (matches r c) (allSends ng k st cw) = Some (sendMessage ng k r' c' (st (num B))) /\
    tangential_conform (sb_dims A) (sb_dims B) (face_saxis (nface f)) o /\
    good (blocksForProcs w) ng (num B) (sb_dims B) (sendFace (nface f) o) (num A) (inv o) c'.
Proof.
  intros C F HA HcA RA Hf En L Eo G.
  pose proof (atRank_in _ _ _ HA) as HAin. fold (blocksOf w) in HAin.
  pose proof (conf_nface _ _ _ _ C HAin Hf) as Rf.
  destruct (conf_pair _ _ _ _ _ _ C HAin Hf En L Eo) as (B & g & HB & EB & Hg & Eng & Efg & Eog & T).
  pose proof C as (Hng & ND & HC & _).
  destruct (atRank_exists w B HB) as [rB HrB].
  destruct (atRank_l _ _ _ _ _ F HrB) as [cbB [HcB RBB]].
  assert (Hgc: In g (connFaces B)). { apply filter_In. split; auto. unfold hasN. now rewrite Eng. }
  destruct RBB as [EcB FB]. destruct (Forall2_in_l _ _ _ _ FB Hgc) as [c' [Hc' (n' & o2 & En' & L2 & Eo2 & G2)]].
  assert (Hn': n' = num A) by congruence. subst n'.
  assert (X2: forall a, o2 a = inv o a) by (apply show_inj; congruence).
  apply (good_ext _ _ _ _ _ _ _ _ _ X2) in G2. rewrite Efg in G2.
  destruct (neighborOrientation_inv o L) as [_ Linv].
  set (m0 := sendMessage ng k rB c' (st (cb_num cbB))).
  assert (M0: matches r c m0 = true).
  { unfold matches, m0, sendMessage; simpl.
    destruct G as (_ & _ & g3 & _ & g5 & _). destruct G2 as (_ & _ & g3' & g4' & _).
    rewrite g3, g5, g3', g4'. rewrite <- EB. rewrite (commRank_spec w rB B ND HrB), (commRank_spec w r A ND HA).
    rewrite back_face by auto. rewrite !Z.eqb_refl. reflexivity. }
  assert (I0: In m0 (allSends ng k st cw)) by (apply allSends_in; exists rB, cbB, c'; auto).
  destruct (find (matches r c) (allSends ng k st cw)) as [m|] eqn:Fm;
    [|pose proof (find_none _ _ Fm m0 I0) as N0; congruence].
  apply find_some in Fm as [Im Mm]. apply allSends_in in Im as (r2 & cb2 & c2 & HcB2 & Hc2 & ->).
  destruct (atRank_r _ _ _ _ _ F HcB2) as [A2 [HA2 [EA2 FA2]]].
  destruct (Forall2_in_r _ _ _ _ FA2 Hc2) as [g2 [Hg2 (n2 & o3 & En2 & L3 & Eo3 & G3)]].
  apply filter_In in Hg2 as [Hg2 _].
  pose proof (atRank_in _ _ _ HA2) as HA2in. fold (blocksOf w) in HA2in.
  pose proof (conf_nface _ _ _ _ C HA2in Hg2) as Rg2.
  destruct (conf_pair _ _ _ _ _ _ C HA2in Hg2 En2 L3 Eo3) as (B' & g' & HB' & EB' & Hg' & Eng' & Efg' & Eog' & T').
  assert (Tag: n2 * 6 + sendFace (nface g2) o3 = num A * 6 + nface f).
  { unfold matches in Mm. simpl in Mm. rewrite !andb_true_iff, !Z.eqb_eq in Mm. destruct Mm as [_ Mt].
    destruct G as (_ & _ & _ & _ & g5 & _). destruct G3 as (_ & _ & _ & g4 & _).
    unfold sendFace. congruence. }
  pose proof (sendFace_range (nface g2) o3) as Rs.
  assert (E1: n2 = num A) by lia. assert (E2: sendFace (nface g2) o3 = nface f) by lia.
  assert (EBA: B' = A) by (apply (num_inj w); auto; congruence). subst B'.
  assert (g' = f).
  { apply (nface_inj (faces (sb_topo A))); auto; [apply HC; auto|congruence]. }
  subst g'.
  assert (A2 = B). { apply (num_inj w); auto; congruence. } subst A2.
  assert (X3: forall a, o a = inv o3 a) by (apply show_inj; congruence).
  assert (X4: forall a, o3 a = inv o a).
  { intros a. rewrite <- (inv_inv o3 L3 a).
    change (inv_at (inv o3 I) (inv o3 J) (inv o3 K) a = inv_at (o I) (o J) (o K) a). now rewrite <- !X3. }
  assert (E3: nface g2 = sendFace (nface f) o).
  { rewrite <- E2. rewrite <- (back_face (nface g2) o3) at 1 by auto.
    unfold sendFace at 2. f_equal. rewrite (act_ext (inv o3) o); [reflexivity|]. intros; symmetry; auto. }
  exists B, r2, c2. repeat split; auto; rewrite ?EA2; auto;
  apply (good_ext _ _ _ _ _ _ _ _ _ X4) in G3; rewrite E3 in G3; subst n2; apply G3.
Qed.

(** value of the received data *)
Lemma divmod_flat g a b s0 s1 : 0 <= a < s0 -> 0 <= b < s1 ->
  let x := g * (s0 * s1) + a * s1 + b in
  x / (s0 * s1) = g /\ x / s1 mod s0 = a /\ x mod s1 = b.
Proof.
  intros Ha Hb x. unfold x. repeat split.
  - symmetry. apply (Z.div_unique_pos _ _ _ (a * s1 + b)); nia.
  - replace (g * (s0 * s1) + a * s1 + b) with ((g * s0 + a) * s1 + b) by ring.
    rewrite Z.div_add_l, (Z.div_small b) by lia. rewrite Z.add_0_r.
    rewrite Z.add_comm, Z.mod_add by lia. apply Z.mod_small; lia.
  - replace (g * (s0 * s1) + a * s1 + b) with (b + (g * s0 + a) * s1) by ring.
    rewrite Z.mod_add by lia. apply Z.mod_small; lia.
Qed.

Lemma recv_value {V} procs1 procs2 ng k (stB : array3 V) dA dB f o nbA nA nB nbB r' c c' p :
  0 < ng -> legal o -> 1 <= f <= 6 -> tangential_conform dA dB (face_saxis f) o ->
  good procs1 ng nA dA f nbA o c -> good procs2 ng nB dB (sendFace f o) nbB (inv o) c' ->
  inArray k ng dA p -> covers k ng dA f p ->
  recvBuffer k c (sendMessage ng k r' c' stB) (co p (ax_of f) - lo k ng dA f) (co p (tan0 (ax_of f))) (co p (tan1 (ax_of f)))
  = at3 stB (sendIdx k ng dB f o (co p (ax_of f) - lo k ng dA f) (co p (tan0 (ax_of f))) (co p (tan1 (ax_of f)))).
Proof.
  intros Hng L R T G G' Hp Hc.
  destruct G as (_ & _ & _ & _ & _ & _ & g7 & _). destruct G' as (g1' & _ & _ & _ & _ & g6' & g7' & _ & g9').
  unfold recvBuffer, sendMessage; cbn [m_data]. unfold sendShape. rewrite g7, g6', g7'.
  rewrite (shape_match k ng dA dB f o L R T). unfold shapeOf. cbn [fst snd]. fold (ax_of f).
  pose proof (Hp (tan0 (ax_of f))) as H0. pose proof (Hp (tan1 (ax_of f))) as H1.
  destruct (divmod_flat (co p (ax_of f) - lo k ng dA f) _ _ _ _ H0 H1) as (D1 & D2 & D3).
  rewrite D1, D2, D3. unfold sendLayer. rewrite orientGet_idx, g1', g6', g7'.
  rewrite getFaceSlice_asm by apply sendFace_range.
  unfold covers in Hc. rewrite g9' by lia. reflexivity.
Qed.

Lemma glued_unique k ng dA dB s o X p p' : legal o -> glued ng dA dB s o X (pos k p) -> glued ng dA dB s o X (pos k p') -> p = p'.
Proof.
  intros L H1 H2.
  assert (P: forall a, pos k p a = pos k p' a).
  { intros a. destruct (inv_inverse o L) with (s := (I,true)).
    assert (Hs: exists b, fst (o b) = a).
    { pose proof (legal_legalb _ L) as Hb. unfold legalb in Hb.
      destruct (o I) as [xi si] eqn:EI, (o J) as [xj sj] eqn:EJ, (o K) as [xk sk] eqn:EK; cbn [fst snd] in *.
      destruct a, xi, xj, xk; simpl in *; try discriminate;
      first [exists I; rewrite EI; reflexivity | exists J; rewrite EJ; reflexivity | exists K; rewrite EK; reflexivity]. }
    destruct Hs as [b <-]. specialize (H1 b). specialize (H2 b). cbv zeta in *. destruct (axis_eqb b (fst s)); congruence. }
  pose proof (P I) as PI. pose proof (P J) as PJ. pose proof (P K) as PK. unfold pos in *.
  destruct p as [[i j] l], p' as [[i' j'] l']. cbn [co fst snd] in *.
  destruct k; repeat f_equal; lia.
Qed.

Lemma split_last {A} (P : A -> Prop) (dec : forall a, {P a} + {~ P a}) l :
  (forall a, In a l -> ~ P a) \/ exists l1 a l2, l = l1 ++ a :: l2 /\ P a /\ forall x, In x l2 -> ~ P x.
Proof.
  induction l as [|a l IH]; [left; simpl; tauto|].
  destruct IH as [H|(l1 & b & l2 & -> & Pb & H)].
  - destruct (dec a) as [Pa|Pa]; [right; exists [], a, l; auto|left]. intros x [<-|Hx]; auto.
  - right. exists (a :: l1), b, l2. auto.
Qed.

(** Main theorem. *)
Lemma halo_main ng w k : conforming ng w ->
  exists cw, setupAll ng w = Some cw /\
  forall (V : Type) (st : state V), exists st', communicate ng k cw st = Some st' /\
    (forall A p, In A (blocksOf w) -> inArray k ng (sb_dims A) p ->
      (forall f B o s p', joined w A f B o -> outward (nface f) s -> inHalo k ng (sb_dims A) s p ->
         (forall f2 B2 o2 s2, joined w A f2 B2 o2 -> outward (nface f2) s2 -> nface f < nface f2 ->
              ~ inHalo k ng (sb_dims A) s2 p) ->
         glued ng (sb_dims A) (sb_dims B) s o (pos k p) (pos k p') ->
         at3 (st' (num A)) p = at3 (st (num B)) p') /\
      ((forall f B o s, joined w A f B o -> outward (nface f) s -> ~ inHalo k ng (sb_dims A) s p) ->
         at3 (st' (num A)) p = at3 (st (num A)) p)) /\
    (forall n, ~ In n (map num (blocksOf w)) -> st' n = st n).
Proof.
  intros C. destruct (setupAll_ok ng w C) as [cw [Ecw F]]. exists cw. split; auto.
  intros V st. rewrite communicate_flat.
  pose proof C as (Hng & ND & HC & HJ).
  assert (NUM: map (fun rc => cb_num (snd rc)) (flatW cw) = map num (blocksOf w)).
  { rewrite <- (map_map snd cb_num). rewrite flatW_snd. unfold blocksOf. clear -F.
    assert (HR: forall b cb, RB (blocksForProcs w) ng b cb -> cb_num cb = num b) by (intros b cb H; apply H).
    revert HR F. generalize (RB (blocksForProcs w) ng). intros R HR F.
    induction F as [|mb cmb w' cw' F1 F IH]; simpl; auto. rewrite !map_app, IH. f_equal.
    induction F1 as [|b cb l cl E F1 IH1]; simpl; f_equal; auto. }
  destruct (place_flat k (allSends ng k st cw) (flatW cw)) with (s := st) as [st' [E [P1 P2]]].
  - now rewrite NUM.
  - intros r cb c Hin Hc. apply flatW_in in Hin.
    destruct (atRank_r _ _ _ _ _ F Hin) as [A [HA RA]]. pose proof RA as [_ FA].
    destruct (Forall2_in_r _ _ _ _ FA Hc) as [f [Hf (n & o & En & L & Eo & G)]].
    apply filter_In in Hf as [Hf _].
    destruct (msg_found ng w cw k st r A cb f c n o C F HA Hin RA Hf En L Eo G) as (B & r' & c' & _ & _ & Fm & _).
    eauto.
  - exists st'. split; [exact E|]. split.
    2: { intros n Hn. apply P2. now rewrite NUM. }
    intros A p HA Hp.
    destruct (atRank_exists w A HA) as [r HrA].
    destruct (atRank_l _ _ _ _ _ F HrA) as [cb [Hcb RA]]. pose proof RA as [Ecb FA].
    specialize (P1 r cb (proj2 (flatW_in _ _ _) Hcb)). rewrite Ecb in P1.
    assert (H6: forall f, In f (connFaces A) -> 1 <= nface f <= 6).
    { intros f Hf. apply filter_In in Hf as [Hf _]. eapply conf_nface; eauto. }
    assert (JF: forall f, In f (connFaces A) -> exists B o, joined w A f B o).
    { intros f Hf. apply filter_In in Hf as [Hf Hn]. unfold hasN in Hn.
      destruct (neighbor f) as [n|] eqn:En; [|discriminate].
      destruct (HJ A f n HA Hf En) as (B & o & g & o' & s & J & _). eauto. }
    split.
    + intros f B o s p' J O Hh Hlast Hg.
      apply outward_range in O as [Rf ->].
      destruct J as (_ & Hf & HB & En & L & Eo).
      assert (Hfc: In f (connFaces A)). { apply filter_In. split; auto. unfold hasN. now rewrite En. }
      destruct (split_last (fun f => covers k ng (sb_dims A) (nface f) p) (fun f => covers_dec _ _ _ _ _) (connFaces A))
        as [Hno|(l1 & f1 & l2 & El & Hf1 & Hl2)].
      { exfalso. apply (Hno f Hfc). now apply covers_inHalo. }
      assert (f1 = f).
      { assert (Sd: StronglySorted (fun a b => nface a < nface b) (connFaces A)).
        { apply sorted_filter, faces_sorted. apply HC; auto. }
        assert (Hf1c: In f1 (connFaces A)) by (rewrite El; apply in_or_app; right; now left).
        assert (Le: nface f <= nface f1).
        { rewrite El in Hfc. apply in_app_or in Hfc as [Hfc|[->|Hfc]]; [|lia|].
          - rewrite El in Sd. clear -Sd Hfc. induction l1 as [|x l1 IH]; [destruct Hfc|].
            simpl in Sd. inversion Sd as [|? ? S1 S2]; subst. destruct Hfc as [->|Hfc]; auto.
            rewrite Forall_forall in S2. specialize (S2 f1 ltac:(apply in_or_app; right; now left)). lia.
          - exfalso. apply (Hl2 f Hfc). now apply covers_inHalo. }
        destruct (Z.eq_dec (nface f) (nface f1)) as [Ee|Ne].
        - apply (nface_inj (faces (sb_topo A))); auto; [apply HC; auto|]. apply filter_In in Hf1c; tauto.
        - exfalso. destruct (JF f1 Hf1c) as (B2 & o2 & J2).
          apply (Hlast f1 B2 o2 (face_saxis (nface f1)) J2); [|lia|now apply covers_inHalo].
          apply outward_face_saxis. split; auto. }
      subst f1.
      rewrite El in FA. destruct (Forall2_split _ _ _ _ _ FA) as (c1 & c & c2 & Ec & F1 & RFc & F2).
      rewrite P1, Ec.
      replace (c1 ++ c :: c2) with ((c1 ++ [c]) ++ c2) by (rewrite <- app_assoc; reflexivity).
      rewrite faceFold_app.
      rewrite (faceFold_none k (allSends ng k st cw) r ng (blocksForProcs w) A l2 c2 p Hng); auto.
      2: { intros x Hx. apply H6. rewrite El. apply in_or_app; right; now right. }
      rewrite faceFold_app. unfold faceFold at 1. cbn [fold_left].
      destruct RFc as (n & o1 & En1 & L1 & Eo1 & G).
      assert (X: forall a, o1 a = o a) by (apply show_inj; congruence).
      apply (good_ext _ _ _ _ _ _ _ _ _ X) in G.
      assert (n = num B) by congruence. subst n.
      destruct (msg_found ng w cw k st r A cb f c (num B) o C F HrA Hcb RA Hf En L Eo G)
        as (B' & r' & c' & HB' & EB' & Fm & T & G').
      assert (B' = B) by (apply (num_inj w); auto). subst B'.
      rewrite Fm.
      destruct (place_at k c ng (sb_dims A) (nface f) (recvBuffer k c (sendMessage ng k r' c' (st (num B))))
                (faceFold k (allSends ng k st cw) r c1 (st (num A))) p Rf Hng (proj1 G)) as [PA _].
      { destruct G as (_ & _ & _ & _ & _ & _ & _ & g8 & _). apply g8. }
      rewrite PA by exact Hf1.
      rewrite (recv_value (blocksForProcs w) (blocksForProcs w) ng k (st (num B)) (sb_dims A) (sb_dims B) (nface f) o (num B) (num A) (num B) (num A) r' c c' p); auto.
      f_equal. apply (glued_unique k ng (sb_dims A) (sb_dims B) (face_saxis (nface f)) o (pos k p)); auto.
      pose proof (idx_glued k ng (sb_dims A) (sb_dims B) (nface f) o (co p (ax_of (nface f)) - lo k ng (sb_dims A) (nface f))
        (co p (tan0 (ax_of (nface f)))) (co p (tan1 (ax_of (nface f)))) Hng L Rf T) as IG.
      unfold covers in Hf1. specialize (IG ltac:(lia)).
      unfold recvIdx in IG. unfold lo in IG at 1.
      replace (recvLo k ng (sb_dims A) (face_saxis (nface f)) + (co p (ax_of (nface f)) - recvLo k ng (sb_dims A) (face_saxis (nface f))))
        with (co p (ax_of (nface f))) in IG by lia.
      rewrite asm_co in IG. exact IG.
    + intros Hno. rewrite P1.
      apply (faceFold_none k (allSends ng k st cw) r ng (blocksForProcs w) A (connFaces A)); auto.
      intros f Hf Hcov. destruct (JF f Hf) as (B & o & J).
      apply (Hno f B o (face_saxis (nface f)) J); [|now apply covers_inHalo].
      apply outward_face_saxis. split; auto.
Qed.
