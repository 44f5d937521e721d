(** Lemmas for C76: the exact result of cutBlock. *)
From Coq Require Import ZArith String Ascii List Bool Lia Reals Lra.
From Verif Require Import M_Topology S_Topology L_Topology P_Topology M_Cut S_Cut L_Cut.
Import ListNotations.
Open Scope Z_scope.

Local Opaque updFace faceOf copyFar copySplits keepLow takeHigh foundFlags neighborNface getBlk updBlk freshBlock.

Definition HI (a : axis) := faceNo (a, true).
Definition LO (a : axis) := faceNo (a, false).

Lemma cutFaces_letter a : cutFaces (letter a) = Some (HI a, LO a).
Proof. destruct a; reflexivity. Qed.
Lemma count_letter b a : countAlong (gshape b) (letter a) = Some (points b a).
Proof. unfold points. destruct (gshape b) as [[x y] z]. destruct a; reflexivity. Qed.

(** The far neighbour's update, on one block. *)
Definition relink (far : gface) (a : axis) (m : Z) (A : Z) (b : gblock) : gblock :=
  match neighbor (topo far), orientation (topo far) with
  | Some B, Some o =>
    match neighborNface (HI a) o with
    | Some nf => if A =? B then updFace nf (withNeighbor (Some m)) b else b
    | None => b
    end
  | _, _ => b
  end.

Lemma outward_faceNo s : outward (faceNo s) s.
Proof. destruct s as [[] []]; reflexivity. Qed.
Lemma outward_inj n s : outward n s -> n = faceNo s.
Proof. destruct n as [|[[[]|[]|]|[[]|[]|]|]|]; cbn; intros; subst; try easy; reflexivity. Qed.

Lemma fresh_faces m : faceNums (freshBlock m) = [1;2;3;4;5;6].
Proof. reflexivity. Qed.
Lemma fresh_gn m : gn (freshBlock m) = m.
Proof. reflexivity. Qed.
Lemma fresh_len6 m : length (gfaces (freshBlock m)) = 6%nat.
Proof. reflexivity. Qed.
Lemma fresh_face m k : 1 <= k <= 6 -> faceOf (freshBlock m) k = Some (freshFace k).
Proof.
  intros K. assert (C : k = 1 \/ k = 2 \/ k = 3 \/ k = 4 \/ k = 5 \/ k = 6) by lia.
  destruct C as [->|[->|[->|[->|[->| ->]]]]]; reflexivity.
Qed.
Lemma updFace_gn k f b : gn (updFace k f b) = gn b.
Proof. reflexivity. Qed.
Lemma updFace_shape k f b : gshape (updFace k f b) = gshape b.
Proof. reflexivity. Qed.
Lemma updFace_node k f b p : node (updFace k f b) p = node b p.
Proof. reflexivity. Qed.

Lemma relink_gn far a m A b : gn (relink far a m A b) = gn b.
Proof. unfold relink. destruct neighbor; [|reflexivity]. destruct orientation; [|reflexivity].
  destruct neighborNface; [|reflexivity]. destruct (A =? z); reflexivity. Qed.
Lemma relink_shape far a m A b : gshape (relink far a m A b) = gshape b.
Proof. unfold relink. destruct neighbor; [|reflexivity]. destruct orientation; [|reflexivity].
  destruct neighborNface; [|reflexivity]. destruct (A =? z); reflexivity. Qed.
Lemma relink_node far a m A b p : node (relink far a m A b) p = node b p.
Proof. unfold relink. destruct neighbor; [|reflexivity]. destruct orientation; [|reflexivity].
  destruct neighborNface; [|reflexivity]. destruct (A =? z); reflexivity. Qed.

Lemma nface_range n o k : neighborNface n o = Some k -> 1 <= k <= 6.
Proof.
  Transparent neighborNface. unfold neighborNface. destruct faceToOrientIndex; [|discriminate].
  destruct orient_digit as [d|]; [|discriminate].
  assert (X : forall d k, orientToSmallFace d = Some k -> 1 <= k <= 6).
  { intros e j H. unfold orientToSmallFace in H. destruct e as [|[[[]|[]|]|[[]|[]|]|]|]; try discriminate; injection H as <-; lia. }
  assert (Y : forall d k, orientToLargeFace d = Some k -> 1 <= k <= 6).
  { intros e j H. unfold orientToLargeFace in H. destruct e as [|[[[]|[]|]|[[]|[]|]|]|]; try discriminate; injection H as <-; lia. }
  destruct existsb; [apply X|]. destruct existsb; [apply Y|discriminate].
Qed.
Local Opaque neighborNface.

Lemma relink_nums far a m A b : faceNums (relink far a m A b) = faceNums b.
Proof.
  unfold relink. destruct neighbor; [|reflexivity]. destruct orientation; [|reflexivity].
  destruct neighborNface eqn:E; [|reflexivity]. destruct (A =? z); [|reflexivity].
  apply updFace_nums; [eapply nface_range; eauto|reflexivity].
Qed.

Lemma nums_len b : faceNums b = [1;2;3;4;5;6] -> length (gfaces b) = 6%nat.
Proof. intros E. apply (f_equal (@length Z)) in E. unfold faceNums in E. now rewrite map_length in E. Qed.

(** Copying the lateral faces. *)
Lemma copySplit_ok src dst : periodicReady src -> nface (topo dst) = nface (topo src) -> neighbor (topo dst) = None ->
  exists g, copySplit src dst = Some g /\ sameCondition g src /\ neighbor (topo g) = None.
Proof.
  intros P N E. unfold copySplit. cbv zeta.
  match goal with |- exists g, copyPeriodic ?s ?d = _ /\ _ => destruct (copyPeriodic_ok s d P) as (g & Eg & T & S) end.
  exists g. split; [exact Eg|]. cbn in T. unfold sameCondition. rewrite T. cbn.
  rewrite E, N. repeat split; [now apply S|now apply S|destruct (neighbor (topo src)); reflexivity].
Qed.

Lemma nth_error_ext {A} (l1 l2 : list A) : (forall n, nth_error l1 n = nth_error l2 n) -> l1 = l2.
Proof.
  revert l2. induction l1 as [|x l1 IH]; intros [|y l2] H; [reflexivity|specialize (H O); discriminate|specialize (H O); discriminate|].
  f_equal; [specialize (H O); cbn in H; congruence|]. apply IH. intros n. exact (H (S n)).
Qed.

Local Transparent faceOf.
Lemma face_const k g b : 1 <= k <= 6 -> faceNums b = [1;2;3;4;5;6] -> nface (topo g) = k ->
  faceNums (updFace k (fun _ => g) b) = [1;2;3;4;5;6].
Proof.
  intros K Nn G. rewrite <- Nn. unfold faceNums. apply nth_error_ext. intros j.
  pose proof (nums_len _ Nn) as L6. pose proof (updFace_len k (fun _ => g) b) as L6'.
  destruct (Nat.lt_ge_cases j 6) as [J|J].
  - assert (F : faceOf (updFace k (fun _ => g) b) (Z.of_nat j + 1) =
                if Z.of_nat j + 1 =? k then option_map (fun _ => g) (faceOf b (Z.of_nat j + 1)) else faceOf b (Z.of_nat j + 1))
      by (apply faceOf_updFace; [lia|lia|auto]).
    assert (V : forall b, faceOf b (Z.of_nat j + 1) = nth_error (gfaces b) j).
    { intros c. unfold faceOf. replace ((1 <=? Z.of_nat j + 1) && (Z.of_nat j + 1 <=? 6)) with true by (symmetry; apply andb_true_intro; lia).
      f_equal. lia. }
    rewrite !nth_error_map. rewrite <- !V, F. destruct (Z.eqb_spec (Z.of_nat j + 1) k) as [Q|Q]; [|reflexivity].
    rewrite Q. destruct (faceOf b k) as [d|] eqn:Ed; [|reflexivity]. cbn [option_map]. f_equal. rewrite G.
    symmetry. now apply (face_num b).
  - rewrite !nth_error_map, !(proj2 (nth_error_None _ _)) by lia. reflexivity.
Qed.

Local Opaque faceOf.
Local Transparent copySplits.
Lemma copySplits_ok' ob : faceNums ob = [1;2;3;4;5;6] -> forall all,
  (forall k g, faceOf ob k = Some g -> In k all -> periodicReady g) ->
  forall fs nb, faceNums nb = [1;2;3;4;5;6] -> NoDup fs -> (forall k, In k fs -> In k all) ->
  (forall k, In k fs -> 1 <= k <= 6) ->
  (forall k d, In k fs -> faceOf nb k = Some d -> neighbor (topo d) = None) ->
  exists nb', copySplits ob fs nb = Some nb' /\ gn nb' = gn nb /\ faceNums nb' = [1;2;3;4;5;6] /\
    (forall k, 1 <= k <= 6 -> ~ In k fs -> faceOf nb' k = faceOf nb k) /\
    (forall k s, In k fs -> faceOf ob k = Some s ->
       exists g, faceOf nb' k = Some g /\ sameCondition g s /\ neighbor (topo g) = None).
Proof.
  intros No all P. induction fs as [|k r IH]; intros nb Nn ND Sub R E.
  - exists nb. cbn [copySplits]. repeat split; auto. intros ? ? [].
  - cbn [copySplits]. pose proof (R k (or_introl eq_refl)) as K.
    destruct (faceOf_ex ob k K (nums_len _ No)) as [s Es].
    destruct (faceOf_ex nb k K (nums_len _ Nn)) as [d Ed].
    rewrite Es, Ed.
    destruct (copySplit_ok s d (P _ _ Es (Sub k (or_introl eq_refl)))) as (d' & Ed' & Sd & Nd).
    { rewrite (face_num _ _ _ Nn Ed), (face_num _ _ _ No Es). reflexivity. }
    { apply (E k); [now left|exact Ed]. }
    rewrite Ed'. inversion ND as [|? ? Hk Hr]; subst.
    assert (N' : faceNums (updFace k (fun _ => d') nb) = [1;2;3;4;5;6]).
    { apply face_const; auto. rewrite (proj1 Sd). now apply (face_num ob). }
    destruct (IH (updFace k (fun _ => d') nb) N' Hr) as (nb' & E1 & E2 & E3 & E4 & E5).
    { intros j Hj. apply Sub. now right. }
    { intros j Hj. apply R. now right. }
    { intros j e Hj. rewrite faceOf_updFace; [|auto|apply R; now right|now apply nums_len].
      destruct (Z.eqb_spec j k) as [->|Q]; [contradiction|]. intros He. apply (E j); [now right|exact He]. }
    exists nb'. split; [exact E1|]. split; [exact E2|]. split; [exact E3|]. split.
    + intros j Hj NI. rewrite E4; [|auto|intros X; apply NI; now right].
      rewrite faceOf_updFace; [|auto|auto|now apply nums_len].
      destruct (Z.eqb_spec j k) as [->|Q]; [exfalso; apply NI; now left|reflexivity].
    + intros j t [<-|Hj] Et.
      * rewrite Es in Et. injection Et as <-. exists d'. rewrite E4; [|auto|exact Hk].
        rewrite faceOf_updFace; [|auto|auto|now apply nums_len]. rewrite Z.eqb_refl, Ed. auto.
      * apply (E5 j t Hj Et).
Qed.
Local Opaque copySplits.

Lemma splitFaces_spec a k : In k (splitFaces (HI a) (LO a)) <-> (1 <= k <= 6 /\ k <> HI a /\ k <> LO a).
Proof.
  destruct a; cbn; split; intros H; try (destruct H as [?|[?|[?|[?|[]]]]]; subst; repeat split; congruence || lia);
  destruct H as (? & ? & ?); lia.
Qed.
Lemma splitFaces_nodup a : NoDup (splitFaces (HI a) (LO a)).
Proof. destruct a; cbn; repeat constructor; cbn; intuition lia. Qed.

Lemma copyFar_ok src dst : periodicReady src -> nface (topo dst) = nface (topo src) ->
  exists g, copyFar src dst = Some g /\ sameCondition g src /\ neighbor (topo g) = neighbor (topo src) /\
            nface (topo g) = nface (topo dst).
Proof.
  Local Transparent copyFar. intros P N. unfold copyFar. cbv zeta.
  match goal with |- exists g, copyPeriodic ?s ?d = _ /\ _ => destruct (copyPeriodic_ok s d P) as (g & Eg & T & S) end.
  exists g. split; [exact Eg|]. cbn in T. unfold sameCondition. rewrite T. cbn. rewrite N.
  repeat split; now apply S.
Qed.
Local Opaque copyFar.

Lemma cut_shape mb n old a idx far : wfGrid mb -> closed mb -> blk mb n old ->
  idx < points old a - 1 -> (forall k g, fac mb n k g -> periodicReady g) ->
  faceOf old (HI a) = Some far ->
  let m := Z.of_nat (length mb) in
  let ob := updFace (HI a) (asInterior m) (relink far a m n old) in
  exists mb' nb' dst, cutBlock mb n (letter a) idx =
      Some (mb', [(n, foundFlags (HI a) (LO a) ob); (m, foundFlags (HI a) (LO a) ob)]) /\
    length mb' = S (length mb) /\
    (forall A b, blk mb A b -> blk mb' A (if A =? n then keepLow (letter a) (points old a) idx ob else relink far a m A b)) /\
    blk mb' m (takeHigh (letter a) (points old a) idx ob nb') /\
    gn nb' = m /\ faceNums nb' = [1;2;3;4;5;6] /\
    sameCondition dst far /\ neighbor (topo dst) = neighbor (topo far) /\
    faceOf nb' (HI a) = Some dst /\
    faceOf nb' (LO a) = Some (asInterior n (freshFace (LO a))) /\
    (forall k s, 1 <= k <= 6 -> k <> HI a -> k <> LO a -> faceOf old k = Some s ->
       exists g, faceOf nb' k = Some g /\ sameCondition g s /\ neighbor (topo g) = None).
Proof.
  intros W C Hn Hidx P Ef m ob.
  pose proof (blk_lt _ _ _ Hn) as Ln. fold m in Ln.
  pose proof (W _ _ Hn) as [Gn Nn].
  assert (RH : 1 <= HI a <= 6) by apply faceNo_range. assert (RL : 1 <= LO a <= 6) by apply faceNo_range.
  assert (HL : HI a <> LO a) by (destruct a; discriminate).
  assert (Pf : periodicReady far) by (apply (P (HI a)); apply fac_faceOf; eauto).
  unfold cutBlock. rewrite (getBlk_blk _ _ _ W Hn), count_letter, cutFaces_letter.
  replace (idx <? points old a - 1) with true by (symmetry; lia). cbn [negb]. cbv zeta.
  rewrite fresh_len; [fold m|auto|intros ->; destruct Hn as [_ Hn]; destruct (Z.to_nat n); discriminate].
  rewrite Ef, (fresh_face m (HI a)) by auto.
  destruct (copyFar_ok far (freshFace (HI a)) Pf) as (dst & Ed & Sd & Nd & Fd).
  { cbn [freshFace topo nface]. symmetry. now apply (face_num old). }
  cbn [freshFace topo nface] in Fd. rewrite Ed.
  set (mb1 := mb ++ [freshBlock m]).
  assert (W1 : wfGrid mb1).
  { intros A b H. apply blk_app_inv in H as [H|[-> ->]]; [now apply W|]. split; [reflexivity|exact (fresh_faces m)]. }
  assert (B1 : forall A b, blk mb A b -> blk mb1 A b) by (intros; now apply blk_app_old).
  assert (M1 : blk mb1 m (freshBlock m)) by (unfold mb1, m; apply blk_app_new).
  assert (L1 : length mb1 = S (length mb)) by (unfold mb1; rewrite app_length; cbn; lia).
  set (nb2 := updFace (HI a) (fun _ => dst) (freshBlock m)).
  assert (N2 : faceNums nb2 = [1;2;3;4;5;6]) by (apply face_const; auto; exact (fresh_faces m)).
  set (mb2 := updBlk m (updFace (HI a) (fun _ => dst)) mb1).
  assert (W2 : wfGrid mb2).
  { apply wf_updBlk; [auto|]. intros b Hb. rewrite (blk_fun _ _ _ _ Hb M1). split; [reflexivity|exact N2]. }
  assert (B2 : forall A b, blk mb A b -> blk mb2 A b).
  { intros A b H. pose proof (blk_lt _ _ _ H). pose proof (nth_updBlk _ m (updFace (HI a) (fun _ => dst)) _ _ W1 (B1 _ _ H)) as Q.
    replace (A =? m) with false in Q by (symmetry; apply Z.eqb_neq; lia). exact Q. }
  assert (M2 : blk mb2 m nb2).
  { pose proof (nth_updBlk _ m (updFace (HI a) (fun _ => dst)) _ _ W1 M1) as Q. now rewrite Z.eqb_refl in Q. }
  set (step3 := match neighbor (topo far) with
               | None => Some mb2
               | Some nb => match getBlk mb2 nb with
                 | Some nblk => match orientation (topo far) with
                   | Some o => match neighborNface (HI a) o with
                      | Some nf => Some (updBlk (gn nblk) (updFace nf (withNeighbor (Some m))) mb2)
                      | None => None end
                   | None => None end
                 | None => None end
               end).
  assert (S3 : exists mb3, step3 = Some mb3 /\ wfGrid mb3 /\ length mb3 = length mb2 /\
     (forall A b, blk mb A b -> blk mb3 A (relink far a m A b)) /\ blk mb3 m nb2).
  { unfold step3, relink. destruct (neighbor (topo far)) as [B|] eqn:EB.
    - destruct (C n (HI a) far B) as [[bB HB] (o & LO' & Eo)]; [apply fac_faceOf; eauto|auto|].
      rewrite (getBlk_blk _ _ _ W2 (B2 _ _ HB)), Eo.
      destruct (c02 o (HI a) (a, true) LO' (outward_faceNo _)) as (nf & Enf & Rnf & _).
      rewrite Enf. destruct (W _ _ HB) as [GB NB]. rewrite GB. pose proof (blk_lt _ _ _ HB) as LB. fold m in LB.
      eexists. split; [reflexivity|]. split; [|split; [apply updBlk_len|split]].
      + apply wf_updBlk; [auto|]. intros b Hb. rewrite (blk_fun _ _ _ _ Hb (B2 _ _ HB)).
        split; [reflexivity|]. rewrite updFace_nums; auto.
      + intros A b H. now apply nth_updBlk; auto.
      + pose proof (nth_updBlk _ B (updFace nf (withNeighbor (Some m))) _ _ W2 M2) as Q.
        replace (m =? B) with false in Q by (symmetry; apply Z.eqb_neq; lia). exact Q.
    - exists mb2. auto. }
  destruct S3 as (mb3 & E3 & W3 & L3 & B3 & M3). rewrite E3. clear E3 step3.
  set (mb4 := updBlk n (updFace (HI a) (asInterior m)) mb3).
  assert (W4 : wfGrid mb4).
  { apply wf_updBlk; [auto|]. intros b Hb. split; [reflexivity|]. rewrite updFace_nums; [apply (W3 _ _ Hb)|auto|reflexivity]. }
  set (mb5 := updBlk m (updFace (LO a) (asInterior n)) mb4).
  assert (M4 : blk mb4 m nb2).
  { pose proof (nth_updBlk _ n (updFace (HI a) (asInterior m)) _ _ W3 M3) as Q.
    replace (m =? n) with false in Q by (symmetry; apply Z.eqb_neq; lia). exact Q. }
  assert (W5 : wfGrid mb5).
  { apply wf_updBlk; [auto|]. intros b Hb. split; [reflexivity|]. rewrite updFace_nums; [apply (W4 _ _ Hb)|auto|reflexivity]. }
  assert (B5 : forall A b, blk mb A b -> blk mb5 A (if A =? n then ob else relink far a m A b)).
  { intros A b H. pose proof (blk_lt _ _ _ H).
    pose proof (nth_updBlk _ n (updFace (HI a) (asInterior m)) _ _ W3 (B3 _ _ H)) as Q. fold mb4 in Q.
    pose proof (nth_updBlk _ m (updFace (LO a) (asInterior n)) _ _ W4 Q) as Q'. fold mb5 in Q'.
    replace (A =? m) with false in Q' by (symmetry; apply Z.eqb_neq; lia).
    destruct (Z.eqb_spec A n) as [->|X]; [|exact Q']. rewrite (blk_fun _ _ _ _ H Hn) in Q'. exact Q'. }
  set (nb5 := updFace (LO a) (asInterior n) nb2).
  assert (M5 : blk mb5 m nb5).
  { pose proof (nth_updBlk _ m (updFace (LO a) (asInterior n)) _ _ W4 M4) as Q. now rewrite Z.eqb_refl in Q. }
  pose proof (B5 _ _ Hn) as Hob. rewrite Z.eqb_refl in Hob.
  rewrite (getBlk_blk _ _ _ W5 Hob), (getBlk_blk _ _ _ W5 M5).
  assert (No : faceNums ob = [1;2;3;4;5;6]) by apply (W5 _ _ Hob).
  assert (N5 : faceNums nb5 = [1;2;3;4;5;6]) by apply (W5 _ _ M5).
  assert (F5 : forall k, 1 <= k <= 6 -> k <> HI a -> k <> LO a -> faceOf nb5 k = Some (freshFace k)).
  { intros k K1 K2 K3. unfold nb5. rewrite faceOf_updFace; [|auto|auto|now apply nums_len].
    replace (k =? LO a) with false by (symmetry; now apply Z.eqb_neq).
    unfold nb2. rewrite faceOf_updFace; [|auto|auto|apply fresh_len6].
    replace (k =? HI a) with false by (symmetry; now apply Z.eqb_neq). now apply fresh_face. }
  (* faces of the relinked old block keep everything but the neighbour *)
  assert (Fo : forall k s, 1 <= k <= 6 -> k <> HI a -> faceOf old k = Some s ->
             exists t, faceOf ob k = Some t /\ sameCondition t s /\ span t = span s /\ paxis t = paxis s).
  { intros k s K1 K2 Es. unfold ob. rewrite faceOf_updFace; [|auto|auto|apply nums_len; rewrite relink_nums; exact Nn].
    replace (k =? HI a) with false by (symmetry; now apply Z.eqb_neq).
    assert (Self : exists t, faceOf old k = Some t /\ sameCondition t s /\ span t = span s /\ paxis t = paxis s)
      by (exists s; repeat split; auto).
    unfold relink. destruct (neighbor (topo far)); [|exact Self]. destruct (orientation (topo far)); [|exact Self].
    destruct (neighborNface (HI a) s0) eqn:Enf; [|exact Self]. destruct (n =? z); [|exact Self].
    rewrite faceOf_updFace; [|eapply nface_range; eauto|auto|now apply nums_len].
    destruct (k =? z0); [|exact Self]. rewrite Es. eexists. split; [reflexivity|]. repeat split; auto. }
  assert (Po : forall k g, faceOf ob k = Some g -> In k (splitFaces (HI a) (LO a)) -> periodicReady g).
  { intros k g E I. apply splitFaces_spec in I as (K1 & K2 & K3).
    destruct (faceOf_ex old k K1 (nums_len _ Nn)) as [s Es].
    destruct (Fo _ _ K1 K2 Es) as (t & Et & (S1 & S2 & S3 & S4 & S5) & S6 & S7).
    rewrite E in Et. injection Et as <-. assert (PS : periodicReady s) by (apply (P k); apply fac_faceOf; eauto).
    unfold periodicReady in *. rewrite S2, S7. exact PS. }
  destruct (copySplits_ok' ob No (splitFaces (HI a) (LO a)) Po (splitFaces (HI a) (LO a)) nb5 N5 (splitFaces_nodup a))
    as (nb' & E1 & E2 & E3 & E4 & E5).
  { auto. }
  { intros k I. now apply splitFaces_spec in I. }
  { intros k d I E. apply splitFaces_spec in I as (K1 & K2 & K3). rewrite F5 in E by auto. injection E as <-. reflexivity. }
  rewrite E1.
  set (mb6 := updBlk m (fun _ => takeHigh (letter a) (points old a) idx ob nb') mb5).
  assert (W6 : wfGrid mb6).
  { apply wf_updBlk; [auto|]. intros b Hb. rewrite (blk_fun _ _ _ _ Hb M5). split; [exact E2|exact E3]. }
  exists (updBlk n (keepLow (letter a) (points old a) idx) mb6), nb', dst.
  split; [reflexivity|]. split.
  { unfold mb6, mb5, mb4. rewrite !updBlk_len, L3. unfold mb2. now rewrite updBlk_len. }
  split.
  { intros A b H. pose proof (blk_lt _ _ _ H).
    pose proof (nth_updBlk _ m (fun _ => takeHigh (letter a) (points old a) idx ob nb') _ _ W5 (B5 _ _ H)) as Q. fold mb6 in Q.
    replace (A =? m) with false in Q by (symmetry; apply Z.eqb_neq; lia).
    pose proof (nth_updBlk _ n (keepLow (letter a) (points old a) idx) _ _ W6 Q) as Q'.
    destruct (A =? n); exact Q'. }
  split.
  { pose proof (nth_updBlk _ m (fun _ => takeHigh (letter a) (points old a) idx ob nb') _ _ W5 M5) as Q. fold mb6 in Q.
    rewrite Z.eqb_refl in Q. pose proof (nth_updBlk _ n (keepLow (letter a) (points old a) idx) _ _ W6 Q) as Q'.
    replace (m =? n) with false in Q' by (symmetry; apply Z.eqb_neq; lia). exact Q'. }
  split; [exact E2|]. split; [exact E3|]. split; [exact Sd|]. split; [exact Nd|]. split; [|split].
  - rewrite E4; [|auto|rewrite splitFaces_spec; intuition]. unfold nb5. rewrite faceOf_updFace; [|auto|auto|now apply nums_len].
    replace (HI a =? LO a) with false by (symmetry; now apply Z.eqb_neq).
    unfold nb2. rewrite faceOf_updFace; [|auto|auto|apply fresh_len6]. rewrite Z.eqb_refl, fresh_face by auto. reflexivity.
  - rewrite E4; [|auto|rewrite splitFaces_spec; intuition]. unfold nb5. rewrite faceOf_updFace; [|auto|auto|now apply nums_len].
    rewrite Z.eqb_refl. unfold nb2. rewrite faceOf_updFace; [|auto|auto|apply fresh_len6].
    replace (LO a =? HI a) with false by (symmetry; apply Z.eqb_neq; auto). rewrite fresh_face by auto. reflexivity.
  - intros k s K1 K2 K3 Es. destruct (Fo _ _ K1 K2 Es) as (t & Et & St & _).
    destruct (E5 k t) as (g & Eg & Sg & Ng); [now apply splitFaces_spec|exact Et|].
    exists g. split; [exact Eg|]. split; [|exact Ng].
    destruct Sg as (X1 & X2 & X3 & X4 & X5), St as (Y1 & Y2 & Y3 & Y4 & Y5).
    repeat split; try congruence.
    all: destruct (X5 H), (Y5 ltac:(congruence)); congruence.
Qed.
