(** The generic analysis instantiated with communicate() on a conforming multi-block grid. *)
From Coq Require Import ZArith String List Bool Lia Permutation.
From Verif Require Import M_Topology S_Topology M_Halo S_Halo L_Halo3 L_Halo4 L_Halo5 L_Halo6 M_Mpi L_Mpi1.
Import ListNotations.
Open Scope Z_scope.

Lemma map_inj_in {A B} (f : A -> B) l a b : NoDup (map f l) -> In a l -> In b l -> f a = f b -> a = b.
Proof.
  induction l as [|x l IH]; simpl; intros N Ha Hb E; [destruct Ha|]. inversion N; subst.
  destruct Ha as [->|Ha], Hb as [->|Hb]; auto.
  - exfalso. apply H1. rewrite E. now apply in_map.
  - exfalso. apply H1. rewrite <- E. now apply in_map.
Qed.

Lemma NoDup_app_remove_l {A} (l1 l2 : list A) : NoDup (l1 ++ l2) -> NoDup l2.
Proof. induction l1; simpl; auto. intros H; inversion H; auto. Qed.
Lemma NoDup_app_remove_r {A} (l1 l2 : list A) : NoDup (l1 ++ l2) -> NoDup l1.
Proof. induction l1; simpl; [constructor|]. intros H; inversion H; subst. constructor; auto. intros G. apply H2. apply in_or_app; auto. Qed.

Definition triples (cw : list (list cblock)) : list (Z * cblock * commFace) :=
  flat_map (fun rc => map (pair rc) (cb_faces (snd rc))) (flatW cw).
Lemma triples_in cw r cb c : In (r, cb, c) (triples cw) <-> receives cw r cb c.
Proof.
  unfold triples, receives. rewrite in_flat_map. split.
  - intros [rc [H1 H2]]. apply in_map_iff in H2 as [c' [E Hc]]. injection E as -> ->. split; auto. now apply flatW_in.
  - intros [H1 H2]. exists (r, cb). split; [now apply flatW_in|]. simpl. now apply in_map.
Qed.
Lemma triples_snd cw : map snd (triples cw) = allFaces cw.
Proof.
  unfold triples, allFaces. rewrite <- flatW_snd. induction (flatW cw) as [|rc l IH]; simpl; auto.
  rewrite map_app, IH, map_map. simpl. now rewrite map_id.
Qed.
Lemma triple_inj cw (t : commFace -> Z) r cb c r' cb' c' : NoDup (map t (allFaces cw)) ->
  receives cw r cb c -> receives cw r' cb' c' -> t c = t c' -> r = r' /\ cb = cb' /\ c = c'.
Proof.
  intros N H H' E. apply triples_in in H, H'.
  assert (X: (r, cb, c) = (r', cb', c')); [|injection X; auto].
  apply (map_inj_in (fun x => t (snd x)) (triples cw)); auto.
  rewrite <- (map_map snd t), triples_snd. exact N.
Qed.

Lemma rankFaces_in {V} ng kinds cw r (f : aface (memory V) (message V)) :
  0 <= r -> (In f (rankFaces ng kinds cw r) <-> exists cb c, receives cw r cb c /\ f = faceProg ng kinds r cb c).
Proof.
  intros Hr. unfold rankFaces, receives, atRank. rewrite in_flat_map. split.
  - intros [cb [H1 H2]]. apply in_map_iff in H2 as [c [<- Hc]]. exists cb, c. repeat split; auto.
    destruct (nth_error cw (Z.to_nat r)) as [mb|] eqn:E.
    + exists mb. split; auto. rewrite (nth_error_nth cw _ [] E) in H1. auto.
    + exfalso. apply nth_error_None in E. rewrite nth_overflow in H1 by auto. destruct H1.
  - intros (cb & c & [[_ [mb [E Hb]]] Hc] & ->). exists cb. rewrite (nth_error_nth cw _ [] E). split; auto. now apply in_map.
Qed.

Lemma rankList_in cw r : In r (rankList cw) <-> 0 <= r < Z.of_nat (length cw).
Proof.
  unfold rankList. rewrite in_map_iff. split.
  - intros [n [<- H]]. apply in_seq in H. lia.
  - intros H. exists (Z.to_nat r). split; [lia|]. apply in_seq. lia.
Qed.
Lemma atRank_ranks {A} (w : list (list A)) cw r x : length w = length cw -> atRank w r x -> In r (rankList cw).
Proof.
  intros L [Hr [mb [E _]]]. apply rankList_in. assert ((Z.to_nat r < length w)%nat) by (apply nth_error_Some; congruence). lia.
Qed.

Section Inst.
Context {V : Type}.
Variables (ng : Z) (w : list (list sblock)) (cw : list (list cblock)) (kinds : nat -> kind).
Hypothesis C : conforming ng w.
Hypothesis E : setupAll ng w = Some cw.
Notation F := (@rankFaces V ng kinds cw).
Notation ranks := (rankList cw).

Lemma partner_of_recv r cb c : receives cw r cb c -> exists rs cbs cs, receives cw rs cbs cs /\
  rs = cf_rank c /\ cf_rank cs = r /\ cf_tagS cs = cf_tagR c.
Proof.
  intros H. destruct (recv_complete ng w cw KNode (fun _ _ _ _ => 0) r cb c C E H) as (rs & cbs & cs & Hs & M & _).
  exists rs, cbs, cs. unfold matches in M. cbn [m_src m_dst m_tag sendMessage] in M.
  rewrite !andb_true_iff, !Z.eqb_eq in M. intuition.
Qed.
Lemma partner_of_send r cb c : receives cw r cb c -> exists rr cbr cr, receives cw rr cbr cr /\
  rr = cf_rank c /\ cf_rank cr = r /\ cf_tagR cr = cf_tagS c.
Proof.
  intros H. destruct (tags_unique ng w cw C E) as (NR & NS & P).
  assert (Hin: In (cf_tagS c) (map cf_tagR (allFaces cw))).
  { eapply Permutation_in; [symmetry; exact P|]. apply in_map. rewrite <- triples_snd.
    change c with (snd (r, cb, c)). apply in_map. now apply triples_in. }
  apply in_map_iff in Hin as [cr [Et Hcr]]. rewrite <- triples_snd in Hcr. apply in_map_iff in Hcr as [[[rr cbr] cr'] [Ex Hcr]].
  simpl in Ex. subst cr'. apply triples_in in Hcr.
  destruct (partner_of_recv rr cbr cr Hcr) as (rs & cbs & cs & Hs & E1 & E2 & E3).
  destruct (triple_inj cw cf_tagS rs cbs cs r cb c NS Hs H ltac:(congruence)) as (-> & -> & ->).
  exists rr, cbr, cr. auto.
Qed.

Lemma receives_ranks r cb c : receives cw r cb c -> In r ranks.
Proof. intros [H _]. eapply atRank_ranks; eauto. Qed.

Lemma inst_Hsend : forall r f, In r ranks -> In f (F r) ->
  src (sch f) = r /\ In (dst (sch f)) ranks /\ exists f', In f' (F (dst (sch f))) /\ rch f' = sch f.
Proof.
  intros r f Hr Hf. apply rankList_in in Hr. apply rankFaces_in in Hf as (cb & c & H & ->); [|lia].
  destruct (partner_of_send r cb c H) as (rr & cbr & cr & Hrr & E1 & E2 & E3).
  unfold src, dst. cbn [faceProg sch rch fst snd]. split; auto. rewrite <- E1.
  pose proof (receives_ranks _ _ _ Hrr) as HR. split; auto.
  exists (faceProg ng kinds rr cbr cr). apply rankList_in in HR. split.
  - apply rankFaces_in; [lia|]. eauto.
  - cbn [faceProg rch]. congruence.
Qed.
Lemma inst_Hrecv : forall r f, In r ranks -> In f (F r) ->
  dst (rch f) = r /\ In (src (rch f)) ranks /\ exists f', In f' (F (src (rch f))) /\ sch f' = rch f.
Proof.
  intros r f Hr Hf. apply rankList_in in Hr. apply rankFaces_in in Hf as (cb & c & H & ->); [|lia].
  destruct (partner_of_recv r cb c H) as (rr & cbr & cr & Hrr & E1 & E2 & E3).
  unfold src, dst. cbn [faceProg sch rch fst snd]. split; auto. rewrite <- E1.
  pose proof (receives_ranks _ _ _ Hrr) as HR. split; auto.
  exists (faceProg ng kinds rr cbr cr). apply rankList_in in HR. split.
  - apply rankFaces_in; [lia|]. eauto.
  - cbn [faceProg sch]. congruence.
Qed.

Lemma rank_tags_nodup (t : commFace -> Z) r : NoDup (map t (allFaces cw)) ->
  NoDup (map t (flat_map cb_faces (nth (Z.to_nat r) cw []))).
Proof.
  intros N. destruct (nth_error cw (Z.to_nat r)) as [mb|] eqn:En.
  - rewrite (nth_error_nth cw _ [] En). apply nth_error_split in En as (l1 & l2 & -> & _).
    unfold allFaces in N. rewrite concat_app, flat_map_app, map_app in N. simpl in N. rewrite flat_map_app, map_app in N.
    apply NoDup_app_remove_l in N. apply NoDup_app_remove_r in N. exact N.
  - apply nth_error_None in En. rewrite nth_overflow by auto. constructor.
Qed.
Lemma rankFaces_map (t : commFace -> Z) (g : aface (memory V) (message V) -> Z) r :
  (forall b c, g (faceProg ng kinds r b c) = t c) ->
  map g (F r) = map t (flat_map cb_faces (nth (Z.to_nat r) cw [])).
Proof.
  intros H. unfold rankFaces. induction (nth (Z.to_nat r) cw []) as [|b l IH]; simpl; auto.
  rewrite !map_app, IH, map_map. f_equal. apply map_ext. intros; apply H.
Qed.
Lemma inst_NDr : forall r, In r ranks -> NoDup (map rch (F r)).
Proof.
  intros r _. apply (NoDup_map_inv' snd). rewrite map_map.
  rewrite (rankFaces_map cf_tagR (fun f => snd (rch f))); [|reflexivity].
  apply rank_tags_nodup. apply (tags_unique ng w cw C E).
Qed.
Lemma inst_NDs : forall r, In r ranks -> NoDup (map sch (F r)).
Proof.
  intros r _. apply (NoDup_map_inv' snd). rewrite map_map.
  rewrite (rankFaces_map cf_tagS (fun f => snd (sch f))); [|reflexivity].
  apply rank_tags_nodup. apply (tags_unique ng w cw C E).
Qed.

(** the ideal result is the sequential one *)
Variable nv : nat.
Variable st : nat -> state V.
Variable loc0 : Z -> memory V.
Hypothesis L0 : forall r cb v, atRank cw r cb -> loc0 r v (cb_num cb) = st v (cb_num cb).

Lemma cw_nums : NoDup (map cb_num (List.concat cw)).
Proof.
  destruct (setupAll_ok ng w C) as [cw' [E' FF]]. assert (cw' = cw) by congruence. subst cw'.
  pose proof C as (_ & ND & _). replace (map cb_num (List.concat cw)) with (map num (blocksOf w)); auto.
  unfold blocksOf. clear -FF. generalize dependent (blocksForProcs w). intros procs FF. induction FF as [|a b l l' H FF IH]; simpl; auto.
  rewrite !map_app. f_equal; auto. clear -H. induction H as [|x y l l' [H1 _] F IH]; simpl; auto. f_equal; auto.
Qed.

Lemma find_matches v r cb c : receives cw r cb c ->
  exists rs cbs cs, receives cw rs cbs cs /\ rs = cf_rank c /\ cf_rank cs = r /\ cf_tagS cs = cf_tagR c /\
   find (matches r c) (allSends ng (kinds v) (st v) cw) = Some (sendMessage ng (kinds v) rs cs (st v (cb_num cbs))).
Proof.
  intros H. destruct (partner_of_recv r cb c H) as (rs & cbs & cs & Hs & E1 & E2 & E3).
  exists rs, cbs, cs. repeat split; auto; try apply Hs.
  destruct (find (matches r c) (allSends ng (kinds v) (st v) cw)) as [m|] eqn:Ef.
  - apply find_some in Ef as [Hm Mm]. apply allSends_in in Hm as (r' & cb' & c' & Ha & Hc & ->).
    unfold matches in Mm. cbn [m_src m_dst m_tag sendMessage] in Mm. rewrite !andb_true_iff, !Z.eqb_eq in Mm. destruct Mm as [[M1 M2] M3].
    destruct (tags_unique ng w cw C E) as (_ & NS & _).
    destruct (triple_inj cw cf_tagS r' cb' c' rs cbs cs NS (conj Ha Hc) Hs ltac:(congruence)) as (-> & -> & ->). reflexivity.
  - exfalso. pose proof (find_none _ _ Ef (sendMessage ng (kinds v) rs cs (st v (cb_num cbs)))) as G.
    assert (Hin: In (sendMessage ng (kinds v) rs cs (st v (cb_num cbs))) (allSends ng (kinds v) (st v) cw)).
    { apply allSends_in. exists rs, cbs, cs. destruct Hs. auto. }
    specialize (G Hin). unfold matches in G. cbn [m_src m_dst m_tag sendMessage] in G.
    rewrite E1, E2, E3, !Z.eqb_refl in G. discriminate.
Qed.

Lemma msgAt_val v (g : Z -> memory V) r cb c : receives cw r cb c ->
  (forall r cb, atRank cw r cb -> g r v (cb_num cb) = st v (cb_num cb)) ->
  msgAt F v (rch (@faceProg V ng kinds r cb c)) g = find (matches r c) (allSends ng (kinds v) (st v) cw).
Proof.
  intros H Hg. destruct (find_matches v r cb c H) as (rs & cbs & cs & Hs & E1 & E2 & E3 & ->).
  unfold msgAt. cbn [faceProg rch src fst]. unfold src; cbn [fst].
  rewrite <- E1.
  pose proof (receives_ranks _ _ _ Hs) as HR. apply rankList_in in HR.
  assert (Hin: In (faceProg ng kinds rs cbs cs) (F rs)) by (apply rankFaces_in; [lia|eauto]).
  destruct (find _ (F rs)) as [f0|] eqn:Ff.
  - apply find_some in Ff as [Hf0 Ee]. apply ch_eqb_eq in Ee. apply rankFaces_in in Hf0 as (cb' & c' & H' & ->); [|lia].
    cbn [faceProg sch] in Ee. injection Ee as Ea Eb.
    destruct (tags_unique ng w cw C E) as (_ & NS & _).
    destruct (triple_inj cw cf_tagS rs cb' c' rs cbs cs NS H' Hs ltac:(congruence)) as (_ & -> & ->).
    cbn [apay faceProg]. rewrite Hg; [reflexivity|apply Hs].
  - exfalso. pose proof (find_none _ _ Ff _ Hin) as G. simpl in G. rewrite E2, E3 in G. rewrite ch_eqb_refl in G. discriminate.
Qed.

(** one rank, one variable *)
Lemma fold_faces v (g : Z -> memory V) r cb : atRank cw r cb ->
  (forall r cb, atRank cw r cb -> g r v (cb_num cb) = st v (cb_num cb)) ->
  forall cs, (forall c, In c cs -> In c (cb_faces cb)) -> forall s : memory V,
  let s' := fold_left (applyW F v g) (map (faceProg ng kinds r cb) cs) s in
  s' v (cb_num cb) = faceFold (kinds v) (allSends ng (kinds v) (st v) cw) r cs (s v (cb_num cb)) /\
  (forall u n, u <> v \/ n <> cb_num cb -> s' u n = s u n).
Proof.
  intros Ha Hg. induction cs as [|c cs IH]; intros Hc s; cbn [map fold_left].
  - split; auto.
  - assert (HR: receives cw r cb c) by (split; auto; apply Hc; now left).
    destruct (IH (fun x Hx => Hc x (or_intror Hx)) (applyW F v g s (faceProg ng kinds r cb c))) as [I1 I2].
    assert (Step: applyW F v g s (faceProg ng kinds r cb c) v (cb_num cb) =
       match find (matches r c) (allSends ng (kinds v) (st v) cw) with
       | Some m => placeRecvBuffer (kinds v) c (recvBuffer (kinds v) c m) (s v (cb_num cb)) | None => s v (cb_num cb) end /\
       forall u n, u <> v \/ n <> cb_num cb -> applyW F v g s (faceProg ng kinds r cb c) u n = s u n).
    { unfold applyW. rewrite (msgAt_val v g r cb c HR Hg).
      destruct (find (matches r c) _) as [m|]; [|split; auto]. cbn [faceProg ahnd]. unfold mem_upd. split.
      - now rewrite Nat.eqb_refl, Z.eqb_refl.
      - intros u n [H|H].
        + destruct (Nat.eqb_spec u v); [congruence|]. reflexivity.
        + destruct (Z.eqb_spec n (cb_num cb)); [congruence|]. now rewrite andb_false_r. }
    destruct Step as [S1 S2]. split.
    + rewrite I1, S1. reflexivity.
    + intros u n H. rewrite I2 by auto. apply S2; auto.
Qed.

Lemma fold_blocks v (g : Z -> memory V) r :
  (forall r cb, atRank cw r cb -> g r v (cb_num cb) = st v (cb_num cb)) ->
  forall mb, (forall cb, In cb mb -> atRank cw r cb) -> NoDup (map cb_num mb) -> forall s : memory V,
  let s' := fold_left (applyW F v g) (flat_map (fun b => map (faceProg ng kinds r b) (cb_faces b)) mb) s in
  (forall cb, In cb mb -> s' v (cb_num cb) = faceFold (kinds v) (allSends ng (kinds v) (st v) cw) r (cb_faces cb) (s v (cb_num cb))) /\
  (forall u n, u <> v \/ ~ In n (map cb_num mb) -> s' u n = s u n).
Proof.
  intros Hg. induction mb as [|b mb IH]; intros Ha N s; cbn [flat_map].
  - split; [intros cb []|auto].
  - simpl in N. inversion N as [|? ? Hni N']; subst. rewrite fold_left_app.
    destruct (fold_faces v g r b (Ha b (or_introl eq_refl)) Hg (cb_faces b) (fun c H => H) s) as [S1 S2].
    set (s1 := fold_left (applyW F v g) (map (faceProg ng kinds r b) (cb_faces b)) s) in *.
    destruct (IH (fun cb H => Ha cb (or_intror H)) N' s1) as [I1 I2]. split.
    + intros cb [<-|Hcb].
      * rewrite I2; [exact S1|auto].
      * rewrite (I1 cb Hcb). f_equal. apply S2. right. intros Heq. apply Hni. rewrite <- Heq. now apply in_map.
    + intros u n H. rewrite I2.
      * apply S2. destruct H as [H|H]; [auto|right; intros ->; apply H; now left].
      * destruct H as [H|H]; [auto|right; intros G; apply H; now right].
Qed.

Lemma comm_result v : exists st', communicate ng (kinds v) cw (st v) = Some st' /\
  (forall r cb, atRank cw r cb -> st' (cb_num cb) = faceFold (kinds v) (allSends ng (kinds v) (st v) cw) r (cb_faces cb) (st v (cb_num cb))).
Proof.
  rewrite communicate_flat.
  destruct (place_flat (kinds v) (allSends ng (kinds v) (st v) cw) (flatW cw)) with (s := st v) as [st' [E1 [H1 _]]].
  - rewrite <- map_map with (f := snd) (g := cb_num). rewrite flatW_snd. apply cw_nums.
  - intros r cb c Hi Hc. apply flatW_in in Hi.
    destruct (find_matches v r cb c (conj Hi Hc)) as (rs & cbs & cs & _ & _ & _ & _ & ->). eauto.
  - exists st'. split; auto. intros r cb H. apply H1. now apply flatW_in.
Qed.

Lemma big_spec : forall u,
  (forall v, (u <= v)%nat -> forall r, In r ranks -> forall n, big F loc0 u r v n = loc0 r v n) /\
  (forall v, (v < u)%nat -> forall r cb, atRank cw r cb -> big F loc0 u r v (cb_num cb) =
      faceFold (kinds v) (allSends ng (kinds v) (st v) cw) r (cb_faces cb) (st v (cb_num cb))) /\
  (forall v r n, In r ranks -> ~ In n (map cb_num (nth (Z.to_nat r) cw [])) -> big F loc0 u r v n = loc0 r v n).
Proof.
  induction u as [|u (I1 & I2 & I3)].
  - split; [reflexivity|]. split; [intros; lia|reflexivity].
  - assert (Hg: forall r cb, atRank cw r cb -> big F loc0 u r u (cb_num cb) = st u (cb_num cb)).
    { intros r cb H. rewrite I1; [apply L0; auto|lia|eapply atRank_ranks; eauto]. }
    assert (FB: forall r, In r ranks -> 
       (forall cb, atRank cw r cb -> big F loc0 (S u) r u (cb_num cb) = faceFold (kinds u) (allSends ng (kinds u) (st u) cw) r (cb_faces cb) (st u (cb_num cb))) /\
       (forall v n, v <> u \/ ~ In n (map cb_num (nth (Z.to_nat r) cw [])) -> big F loc0 (S u) r v n = big F loc0 u r v n)).
    { intros r Hr. cbn [big]. apply rankList_in in Hr.
      assert (Hmb: exists mb, nth_error cw (Z.to_nat r) = Some mb).
      { destruct (nth_error cw (Z.to_nat r)) eqn:En; eauto. apply nth_error_None in En. lia. }
      destruct Hmb as [mb Emb].
      assert (Hall: forall cb, In cb mb <-> atRank cw r cb).
      { intros cb. split; intros H; [split; [lia|eauto]|]. destruct H as [_ [mb' [E' H]]]. congruence. }
      assert (ND: NoDup (map cb_num mb)).
      { pose proof cw_nums as N. apply nth_error_split in Emb as (l1 & l2 & Ecw & _). rewrite Ecw, concat_app in N. simpl in N.
        rewrite !map_app in N. apply NoDup_app_remove_l in N. apply NoDup_app_remove_r in N. exact N. }
      destruct (fold_blocks u (big F loc0 u) r Hg mb (fun cb H => proj1 (Hall cb) H) ND (big F loc0 u r)) as [B1 B2].
      assert (EF: F r = flat_map (fun b => map (faceProg ng kinds r b) (cb_faces b)) mb)
        by (unfold rankFaces; now rewrite (nth_error_nth cw _ [] Emb)).
      rewrite EF, (nth_error_nth cw _ [] Emb). split.
      - intros cb H. rewrite B1 by (apply Hall; auto). f_equal. apply Hg; auto.
      - intros v n H. apply B2. exact H. }
    split; [|split].
    + intros v Hv r Hr n. destruct (FB r Hr) as [_ B]. rewrite B by (left; lia). apply I1; auto. lia.
    + intros v Hv r cb H. assert (Hr: In r ranks) by (eapply atRank_ranks; eauto). destruct (FB r Hr) as [A B].
      destruct (Nat.eq_dec v u) as [->|N]; [apply A; auto|]. rewrite B by auto. apply I2; auto. lia.
    + intros v r n Hr Hn. destruct (FB r Hr) as [_ B]. rewrite B by auto. auto.
Qed.
End Inst.
