(** From faces to the whole exchange. *)
From Coq Require Import ZArith String Ascii List Bool Lia Sorted.
From Verif Require Import M_Topology S_Topology L_Topology M_Halo S_Halo L_Halo1 L_Halo2.
Import ListNotations.
Open Scope Z_scope.

Lemma shape_match k ng dA dB f o : legal o -> 1 <= f <= 6 ->
  tangential_conform dA dB (face_saxis f) o ->
  orientShape (orSpec (sendFace f o) (inv o)) (shapeOf k ng dB (face_saxis (sendFace f o))) = shapeOf k ng dA (face_saxis f).
Proof.
  intros L R T. rewrite orSpec_expect by auto.
  pose proof (T I) as TI. pose proof (T J) as TJ. pose proof (T K) as TK. clear T.
  apply six_range in R. simpl in R.
  unfold sendFace. rewrite face_saxis_face. unfold orExpect, shapeOf, ax_of, act.
  all_o o L;
  (destruct R as [<-|[<-|[<-|[<-|[<-|[<-|[]]]]]]]; cbn [face_saxis fst snd tan0 tan1] in *; rewrite ?EI, ?EJ, ?EK in *;
   cbn [flip fst snd negb] in *;
   try (specialize (TI ltac:(congruence))); try (specialize (TJ ltac:(congruence))); try (specialize (TK ltac:(congruence)));
   unfold orientShape; cbn [dim oT axis_eqb tan1 tan0 negb fst snd extent] in *;
   destruct k; cbn [dim oT axis_eqb tan1 tan0 negb fst snd extent] in *; congruence).
Qed.

(** connected faces *)
Definition hasN (f : face) : bool := match neighbor f with Some _ => true | None => false end.
Definition connFaces (b : sblock) : list face := filter hasN (faces (sb_topo b)).

Definition RF (procs : list (list Z)) (ng : Z) (b : sblock) (f : face) (c : commFace) : Prop :=
  exists n o, neighbor f = Some n /\ legal o /\ orientation f = Some (show o) /\
    good procs ng (num b) (sb_dims b) (nface f) n o c.
Definition RB (procs : list (list Z)) (ng : Z) (b : sblock) (cb : cblock) : Prop :=
  cb_num cb = num b /\ Forall2 (RF procs ng b) (connFaces b) (cb_faces cb).

Lemma setBlock_RB procs ng b : 0 < ng ->
  (forall f, In f (faces (sb_topo b)) -> 1 <= nface f <= 6) ->
  (forall f n, In f (faces (sb_topo b)) -> neighbor f = Some n -> exists o, legal o /\ orientation f = Some (show o)) ->
  exists cb, setBlockCommunication procs ng b = Some cb /\ RB procs ng b cb.
Proof.
  intros Hng H6 HO. unfold setBlockCommunication, RB, connFaces.
  assert (G: exists l, fold_right (fun f acc =>
          match acc with
          | None => None
          | Some l => match neighbor f with
                      | None => Some l
                      | Some nb => match setComm procs ng (nblki (sb_topo b)) (sb_dims b) f nb with
                                   | Some c => Some (c :: l) | None => None end
                      end
          end) (Some []) (faces (sb_topo b)) = Some l /\ Forall2 (RF procs ng b) (filter hasN (faces (sb_topo b))) l).
  { revert H6 HO. generalize (faces (sb_topo b)). induction l as [|f l IH]; intros H6 HO.
    - exists []. split; [reflexivity|constructor].
    - destruct IH as [l' [E F]]; [intros; apply H6; now right|intros; eapply HO; eauto; now right|].
      cbn [fold_right]. rewrite E. cbn [filter]. unfold hasN at 1.
      destruct (neighbor f) as [n|] eqn:En.
      + destruct (HO f n (or_introl eq_refl) En) as [o [Lo Eo]].
        destruct (setComm_good procs ng (nblki (sb_topo b)) (sb_dims b) f n o Hng Lo (H6 f (or_introl eq_refl)) Eo) as [c [Ec Gc]].
        rewrite Ec. exists (c :: l'). split; auto. constructor; auto. exists n, o. repeat split; auto; apply Gc.
      + exists l'. split; auto. }
  destruct G as [l [E F]]. rewrite E. exists (mkCBlock (nblki (sb_topo b)) l). repeat split; auto.
Qed.

Lemma sequence_Forall2 {A B} (f : A -> option B) (R : A -> B -> Prop) l :
  (forall a, In a l -> exists b, f a = Some b /\ R a b) ->
  exists r, sequence (map f l) = Some r /\ Forall2 R l r.
Proof.
  induction l as [|a l IH]; intros H; simpl.
  - exists []. split; auto.
  - destruct (H a (or_introl eq_refl)) as [b [E Rb]]. rewrite E.
    destruct IH as [r [E' F]]; [intros; apply H; now right|]. rewrite E'.
    exists (b :: r). split; auto.
Qed.

Lemma outward_range n s : outward n s -> 1 <= n <= 6 /\ s = face_saxis n.
Proof. apply outward_face_saxis. Qed.

Lemma conf_nface ng w A f : conforming ng w -> In A (blocksOf w) -> In f (faces (sb_topo A)) -> 1 <= nface f <= 6.
Proof.
  intros (_ & _ & H & _) HA Hf. destruct (H A HA) as [E _].
  assert (G: In (nface f) [1;2;3;4;5;6]) by (rewrite <- E; now apply in_map).
  simpl in G. lia.
Qed.

Lemma setupAll_ok ng w : conforming ng w ->
  exists cw, setupAll ng w = Some cw /\ Forall2 (Forall2 (RB (blocksForProcs w) ng)) w cw.
Proof.
  intros C. unfold setupAll. apply sequence_Forall2. intros mb Hmb.
  apply sequence_Forall2. intros b Hb.
  assert (HB: In b (blocksOf w)) by (apply in_concat; eauto).
  apply setBlock_RB.
  - apply C.
  - intros; eapply conf_nface; eauto.
  - intros f n Hf En. destruct C as (_ & _ & _ & H).
    destruct (H b f n HB Hf En) as (B & o & g & o' & s & J & _). exists o. split; apply J.
Qed.

(** ranks *)
Definition atRank {A} (w : list (list A)) (r : Z) (x : A) : Prop :=
  0 <= r /\ exists mb, nth_error w (Z.to_nat r) = Some mb /\ In x mb.

Lemma atRank_exists {A} (w : list (list A)) x : In x (List.concat w) -> exists r, atRank w r x.
Proof.
  intros H. apply in_concat in H as [mb [H1 H2]]. apply In_nth_error in H1 as [n Hn].
  exists (Z.of_nat n). split; [lia|]. rewrite Nat2Z.id. eauto.
Qed.

Lemma commRankFrom_notin procs : forall r n acc, (forall p, In p procs -> ~ In n p) -> commRankFrom r procs n acc = acc.
Proof.
  induction procs as [|p ps IH]; intros r n acc H; simpl; auto.
  rewrite IH by (intros; apply H; now right).
  destruct (existsb (Z.eqb n) p) eqn:E; auto.
  apply existsb_exists in E as [x [Hx E]]. apply Z.eqb_eq in E. subst.
  exfalso. eapply H; [now left|eauto].
Qed.

Lemma commRankFrom_spec procs : forall r0 n acc i p, NoDup (List.concat procs) ->
  nth_error procs i = Some p -> In n p -> commRankFrom r0 procs n acc = r0 + Z.of_nat i.
Proof.
  induction procs as [|q ps IH]; intros r0 n acc i p ND E H; [destruct i; discriminate|].
  simpl in ND. simpl. destruct i as [|i]; simpl in E.
  - injection E as ->. rewrite commRankFrom_notin.
    + replace (existsb (Z.eqb n) p) with true; [lia|]. symmetry. apply existsb_exists. exists n. split; auto. apply Z.eqb_refl.
    + intros p' Hp' Hn. 
      assert (X: In n (List.concat ps)) by (apply in_concat; eauto).
      clear -ND H X. induction p as [|a p IH]; [destruct H|]. simpl in ND. inversion ND; subst.
      destruct H as [->|H]; [apply H2; apply in_or_app; now right|auto].
  - erewrite IH; eauto; [lia|]. clear -ND. induction q as [|a q IH]; simpl in ND; auto. inversion ND; auto.
Qed.

Lemma concat_blocksForProcs w : List.concat (blocksForProcs w) = map num (blocksOf w).
Proof.
  unfold blocksForProcs, blocksOf, num. rewrite concat_map. reflexivity.
Qed.

Lemma commRank_spec w r B : NoDup (map num (blocksOf w)) -> atRank w r B ->
  commRank (blocksForProcs w) (num B) = r.
Proof.
  intros ND [Hr [mb [E H]]]. unfold commRank.
  erewrite (commRankFrom_spec _ 0 _ _ (Z.to_nat r) (map num mb)).
  - lia.
  - now rewrite concat_blocksForProcs.
  - unfold blocksForProcs. apply map_nth_error. exact E.
  - now apply in_map.
Qed.

(** numbered *)
Lemma numbered_in {A} (l : list A) r x : In (r, x) (numbered l) <-> 0 <= r /\ nth_error l (Z.to_nat r) = Some x.
Proof.
  unfold numbered.
  assert (G: forall (l : list A) s r x, In (r, x) (combine (map Z.of_nat (seq s (length l))) l) <->
     Z.of_nat s <= r /\ nth_error l (Z.to_nat (r - Z.of_nat s)) = Some x).
  { clear. induction l as [|a l IH]; intros s r x; simpl.
    - split; [tauto|]. intros [_ H]. destruct (Z.to_nat _); discriminate.
    - rewrite IH. split.
      + intros [E|[H1 H2]].
        * injection E as <- <-. split; [lia|]. replace (Z.of_nat s - Z.of_nat s) with 0 by lia. reflexivity.
        * split; [lia|]. replace (Z.to_nat (r - Z.of_nat s)) with (S (Z.to_nat (r - Z.of_nat (S s)))) by lia. exact H2.
      + intros [H1 H2]. destruct (Z.eq_dec r (Z.of_nat s)) as [->|N].
        * left. replace (Z.of_nat s - Z.of_nat s) with 0 in H2 by lia. simpl in H2. congruence.
        * right. split; [lia|]. replace (Z.to_nat (r - Z.of_nat s)) with (S (Z.to_nat (r - Z.of_nat (S s)))) in H2 by lia. exact H2. }
  rewrite G. simpl. replace (r - 0) with r by lia. tauto.
Qed.

Lemma numbered_snd {A} (l : list A) : map snd (numbered l) = l.
Proof.
  unfold numbered. assert (G: forall (l:list A) s, map snd (combine (map Z.of_nat (seq s (length l))) l) = l).
  { clear. induction l as [|a l IH]; intros s; simpl; f_equal; auto. }
  apply G.
Qed.

(** flatten (rank, block) *)
Definition flatW (w : list (list cblock)) : list (Z * cblock) :=
  flat_map (fun rm => map (pair (fst rm)) (snd rm)) (numbered w).

Lemma flatW_in w r cb : In (r, cb) (flatW w) <-> atRank w r cb.
Proof.
  unfold flatW, atRank. rewrite in_flat_map. split.
  - intros [[r' mb] [H1 H2]]. simpl in H2. apply in_map_iff in H2 as [x [E Hx]]. injection E as -> ->.
    apply numbered_in in H1 as [H0 H1]. eauto.
  - intros [Hr [mb [E H]]]. exists (r, mb). split; [apply numbered_in; auto|]. simpl. apply in_map_iff. eauto.
Qed.

Lemma flatW_snd w : map snd (flatW w) = List.concat w.
Proof.
  unfold flatW. rewrite <- (numbered_snd w) at 2.
  induction (numbered w) as [|[r mb] l IH]; simpl; auto. rewrite map_app, IH, map_map. simpl. now rewrite map_id.
Qed.

Lemma communicate_flat {V} ng k w (st : state V) :
  communicate ng k w st =
  fold_left (fun s rc => placeBlock k (allSends ng k st w) (fst rc) s (snd rc)) (flatW w) (Some st).
Proof.
  unfold communicate, flatW. generalize (allSends ng k st w). intros msgs.
  generalize (Some st). induction (numbered w) as [|[r mb] l IH]; intros s; simpl; auto.
  rewrite fold_left_app, <- IH. f_equal. unfold placeRank. simpl. clear.
  revert s. induction mb as [|b mb IH]; intros s; simpl; auto.
Qed.

Definition faceFold {V} (k : kind) (msgs : list (message V)) (r : Z) (cs : list commFace) (v : array3 V) : array3 V :=
  fold_left (fun v c => match find (matches r c) msgs with
                        | Some m => placeRecvBuffer k c (recvBuffer k c m) v | None => v end) cs v.

Lemma placeBlock_spec {V} k (msgs : list (message V)) r b : 
  (forall c, In c (cb_faces b) -> exists m, find (matches r c) msgs = Some m) ->
  forall s, exists s', placeBlock k msgs r (Some s) b = Some s' /\
    s' (cb_num b) = faceFold k msgs r (cb_faces b) (s (cb_num b)) /\
    forall n, n <> cb_num b -> s' n = s n.
Proof.
  unfold placeBlock, faceFold. induction (cb_faces b) as [|c cs IH]; intros H s; cbn [fold_left].
  - exists s. auto.
  - destruct (H c (or_introl eq_refl)) as [m Em]. cbn [placeFace]. rewrite Em.
    destruct (IH (fun c Hc => H c (or_intror Hc)) (fun n => if n =? cb_num b then placeRecvBuffer k c (recvBuffer k c m) (s (cb_num b)) else s n)) as [s' [E [H1 H2]]].
    exists s'. split; [exact E|]. split.
    + rewrite H1, Z.eqb_refl. reflexivity.
    + intros n Hn. rewrite H2 by auto. destruct (Z.eqb_spec n (cb_num b)); congruence.
Qed.

Lemma place_flat {V} k (msgs : list (message V)) : forall l,
  NoDup (map (fun rc => cb_num (snd rc)) l) ->
  (forall r cb c, In (r, cb) l -> In c (cb_faces cb) -> exists m, find (matches r c) msgs = Some m) ->
  forall s, exists s', fold_left (fun s rc => placeBlock k msgs (fst rc) s (snd rc)) l (Some s) = Some s' /\
    (forall r cb, In (r, cb) l -> s' (cb_num cb) = faceFold k msgs r (cb_faces cb) (s (cb_num cb))) /\
    (forall n, ~ In n (map (fun rc => cb_num (snd rc)) l) -> s' n = s n).
Proof.
  induction l as [|[r cb] l IH]; intros ND H s.
  - exists s. simpl. repeat split; auto; tauto.
  - cbn [fold_left fst snd map] in *. inversion ND as [|? ? Hni ND']; subst.
    destruct (placeBlock_spec k msgs r cb (fun c Hc => H r cb c (or_introl eq_refl) Hc) s) as [s1 [E1 [A1 B1]]].
    cbn [fst snd]. rewrite E1.
    destruct (IH ND' (fun r' cb' c Hi Hc => H r' cb' c (or_intror Hi) Hc) s1) as [s' [E2 [A2 B2]]].
    exists s'. split; auto. split.
    + intros r' cb' [E|Hi].
      * injection E as <- <-. rewrite B2 by auto. exact A1.
      * rewrite (A2 _ _ Hi). f_equal. apply B1. intros Heq. apply Hni. rewrite <- Heq.
        apply (in_map (fun rc => cb_num (snd rc)) _ (r', cb') Hi).
    + intros n Hn. rewrite B2 by (intros G; apply Hn; now right). apply B1. intros ->. apply Hn. now left.
Qed.

(** placement *)
Definition lo (k : kind) (ng : Z) (d : dims) (f : Z) := recvLo k ng d (face_saxis f).
Definition covers (k : kind) (ng : Z) (d : dims) (f : Z) (p : pt) : Prop :=
  lo k ng d f <= co p (ax_of f) < lo k ng d f + nLayers k ng.

Lemma covers_inHalo k ng d f p : covers k ng d f p <-> inHalo k ng d (face_saxis f) p.
Proof.
  unfold covers, lo, recvLo, inHalo, ax_of. destruct (face_saxis f) as [a s]; cbn [fst snd].
  cbv zeta. destruct k, s; cbn [snd fst nLayers]; lia.
Qed.

Lemma covers_dec k ng d f p : {covers k ng d f p} + {~ covers k ng d f p}.
Proof. unfold covers. destruct (Z_le_dec (lo k ng d f) (co p (ax_of f))), (Z_lt_dec (co p (ax_of f)) (lo k ng d f + nLayers k ng)); auto; right; lia. Qed.

Lemma place_at {V} k c ng d f (buf : Z -> Z -> Z -> V) v p : 1 <= f <= 6 -> 0 < ng ->
  cf_nface c = f -> recvSlices k c = zrange (lo k ng d f) (lo k ng d f + nLayers k ng) ->
  (covers k ng d f p -> at3 (placeRecvBuffer k c buf v) p =
        buf (co p (ax_of f) - lo k ng d f) (co p (tan0 (ax_of f))) (co p (tan1 (ax_of f)))) /\
  (~ covers k ng d f p -> at3 (placeRecvBuffer k c buf v) p = at3 v p).
Proof.
  intros R Hng Ef Er. unfold placeRecvBuffer. rewrite Er, Ef, zrange_length.
  replace (lo k ng d f + nLayers k ng - lo k ng d f) with (nLayers k ng) by lia.
  unfold covers. set (L := lo k ng d f). set (N := nLayers k ng).
  assert (HN: 0 <= N) by (unfold N; destruct k; simpl; lia). clearbody L N.
  set (x := co p (ax_of f)) in *.
  assert (G: forall n : nat, Z.of_nat n <= N ->
    let r := at3 (fold_left (fun v g => setFaceSlice v f (nth g (zrange L (L + N)) 0) (buf (Z.of_nat g))) (seq 0 n) v) p in
    (L <= x < L + Z.of_nat n -> r = buf (x - L) (co p (tan0 (ax_of f))) (co p (tan1 (ax_of f)))) /\
    (~ L <= x < L + Z.of_nat n -> r = at3 v p)).
  { induction n as [|n IH]; intros Hn.
    - simpl. split; [lia|reflexivity].
    - cbv zeta. rewrite seq_S, fold_left_app. cbn [fold_left]. rewrite setFaceSlice_at by auto.
      fold x. cbn [Nat.add].
      assert (En: nth n (zrange L (L + N)) 0 = L + Z.of_nat n).
      { rewrite <- (Nat2Z.id n) at 1. apply zrange_nth. lia. }
      rewrite !En.
      destruct IH as [IH1 IH2]; [lia|].
      destruct (Z.eqb_spec x (L + Z.of_nat n)) as [E|E].
      + split; [|lia]. intros _. f_equal. lia.
      + split; intros; [apply IH1; lia|apply IH2; lia]. }
  specialize (G (Z.to_nat N) ltac:(lia)). rewrite Z2Nat.id in G by auto. exact G.
Qed.

Lemma faceFold_app {V} k (msgs : list (message V)) r l1 l2 v :
  faceFold k msgs r (l1 ++ l2) v = faceFold k msgs r l2 (faceFold k msgs r l1 v).
Proof. unfold faceFold. apply fold_left_app. Qed.

Lemma faceFold_none {V} k (msgs : list (message V)) r ng procs b fs cs p : 0 < ng ->
  (forall f, In f fs -> 1 <= nface f <= 6) ->
  Forall2 (RF procs ng b) fs cs ->
  (forall f, In f fs -> ~ covers k ng (sb_dims b) (nface f) p) ->
  forall v, at3 (faceFold k msgs r cs v) p = at3 v p.
Proof.
  intros Hng H6 F. induction F as [|f c fs cs RFc F IH]; intros H v; [reflexivity|].
  unfold faceFold in *. simpl. rewrite IH; [|intros; apply H6; now right|intros; apply H; now right].
  destruct (find (matches r c) msgs) as [m|]; auto.
  destruct RFc as (n & o & _ & _ & _ & G). destruct G as (G1 & _ & _ & _ & _ & _ & _ & G8 & _).
  apply (place_at k c ng (sb_dims b) (nface f) (recvBuffer k c m) v p); auto.
  - apply H6; now left.
  - apply G8.
  - apply H; now left.
Qed.

Lemma Forall2_split {A B} (R : A -> B -> Prop) l1 a l2 r : Forall2 R (l1 ++ a :: l2) r ->
  exists r1 b r2, r = r1 ++ b :: r2 /\ Forall2 R l1 r1 /\ R a b /\ Forall2 R l2 r2.
Proof.
  intros H. apply Forall2_app_inv_l in H as (r1 & r2' & F1 & F2 & ->).
  inversion F2 as [|? b ? r2 Rab F2']; subst. exists r1, b, r2. auto.
Qed.

Lemma Forall2_in_r {A B} (R : A -> B -> Prop) l r y : Forall2 R l r -> In y r -> exists x, In x l /\ R x y.
Proof. intros F. induction F; intros H1; [destruct H1|]. destruct H1 as [->|H1]; [eexists; split; eauto; now left|].
  destruct (IHF H1) as [x0 [? ?]]. exists x0. split; auto. now right. Qed.
Lemma Forall2_in_l {A B} (R : A -> B -> Prop) l r x : Forall2 R l r -> In x l -> exists y, In y r /\ R x y.
Proof. intros F. induction F; intros H1; [destruct H1|]. destruct H1 as [->|H1]; [eexists; split; eauto; now left|].
  destruct (IHF H1) as [y0 [? ?]]. exists y0. split; auto. now right. Qed.

(** sortedness of the faces *)
Lemma faces_sorted (l : list face) : map nface l = [1;2;3;4;5;6] -> StronglySorted (fun a b => nface a < nface b) l.
Proof.
  intros H. assert (S: StronglySorted Z.lt (map nface l)).
  { rewrite H. repeat constructor; lia. }
  revert S. clear H. induction l as [|a l IH]; intros S; [constructor|].
  simpl in S. inversion S; subst. constructor; auto. rewrite Forall_forall in *. intros x Hx. apply H2. now apply in_map.
Qed.
Lemma sorted_filter {A} (R : A -> A -> Prop) (p : A -> bool) l : StronglySorted R l -> StronglySorted R (filter p l).
Proof.
  induction 1; simpl; [constructor|]. destruct (p a); auto. constructor; auto.
  rewrite Forall_forall in *. intros x Hx. apply filter_In in Hx as [Hx _]. auto.
Qed.
Lemma sorted_split_lt (l1 : list face) a l2 x : StronglySorted (fun a b => nface a < nface b) (l1 ++ a :: l2) -> In x l2 -> nface a < nface x.
Proof.
  induction l1; simpl; intros S H; inversion S; subst; auto.
  rewrite Forall_forall in *. auto.
Qed.
Lemma nface_inj (l : list face) a b : map nface l = [1;2;3;4;5;6] -> In a l -> In b l -> nface a = nface b -> a = b.
Proof.
  intros E Ha Hb Hn. assert (ND: NoDup (map nface l)) by (rewrite E; repeat constructor; simpl; intuition lia).
  clear E. induction l as [|c l IH]; [destruct Ha|]. simpl in ND. inversion ND as [|? ? Hni ND']; subst.
  destruct Ha as [->|Ha], Hb as [->|Hb]; auto.
  - exfalso; apply Hni. rewrite Hn. now apply in_map.
  - exfalso; apply Hni. rewrite <- Hn. now apply in_map.
Qed.

Lemma num_inj w A B : NoDup (map num (blocksOf w)) -> In A (blocksOf w) -> In B (blocksOf w) -> num A = num B -> A = B.
Proof.
  generalize (blocksOf w). intros l ND Ha Hb Hn.
  induction l as [|c l IH]; [destruct Ha|]. simpl in ND. inversion ND as [|? ? Hni ND']; subst.
  destruct Ha as [->|Ha], Hb as [->|Hb]; auto.
  - exfalso; apply Hni. rewrite Hn. now apply in_map.
  - exfalso; apply Hni. rewrite <- Hn. now apply in_map.
Qed.

Lemma show_inj o o' : show o = show o' -> forall a, o a = o' a.
Proof.
  assert (D: forall s t, digit_char (saxis_digit s) = digit_char (saxis_digit t) -> s = t).
  { intros [[] []] [[] []] H; vm_compute in H; congruence. }
  intros H. unfold show in H.
  pose proof (f_equal (String.get 0) H) as H1. pose proof (f_equal (String.get 1) H) as H2.
  pose proof (f_equal (String.get 2) H) as H3. cbn [String.get] in H1, H2, H3. clear H.
  intros []; apply D; congruence.
Qed.
