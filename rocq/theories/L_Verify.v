(** Lemmas for C79 and C112. *)
From Coq Require Import ZArith String Ascii List Bool Lia Reals Lra.
From Verif Require Import M_Topology S_Topology L_Topology L_Halo1 M_Cut S_Cut L_Cut L_Cut2 M_Verify S_Verify.
Import ListNotations.
Open Scope Z_scope.

Definition plane (b : gblock) (s : saxis) : Z := if snd s then points b (fst s) - 1 else 0.
Definition qOf (B : gblock) (s' : saxis) (u v : Z) : axis -> Z :=
  fun a => if axis_eqb a (fst s') then plane B s' else if axis_eqb a (tan0 (fst s')) then u else v.
Definition pOf (A : gblock) (s : saxis) (o : orient) (q : axis -> Z) : axis -> Z :=
  fun a => if axis_eqb a (fst s) then plane A s
           else if snd (o a) then q (fst (o a)) else points A a - 1 - q (fst (o a)).

Lemma node_ext b p q : (forall a, p a = q a) -> node b p = node b q.
Proof. intros H. unfold node. now rewrite !H. Qed.

Lemma extract_at b s : exists fa, extractFace b (faceNo s) = Some fa /\
  ash fa = (points b (tan0 (fst s)), points b (tan1 (fst s))) /\
  forall u v, aget fa u v = node b (qOf b s u v).
Proof.
  unfold extractFace, points, node, qOf, plane, points. destruct (gshape b) as [[x y] z].
  destruct s as [[] []]; cbn; eexists; split; try reflexivity; split; try reflexivity; intros; reflexivity.
Qed.

Lemma reorient_brute x y z s a : legalb x y z = true ->
  let o := mk x y z in let s' := S_Topology.flip (act o s) in
  exists a', reorient (faceNo s) (faceNo s') (show (inv o)) a = Some a' /\
    (let t0 := inv o (tan0 (fst s')) in let t1 := inv o (tan1 (fst s')) in
     let n := fun c : axis => if axis_eqb c (tan0 (fst s)) then fst (ash a) else snd (ash a) in
     ash a' = (n (fst t0), n (fst t1)) /\
     forall u v,
       let w := fun c : axis => if axis_eqb c (fst t0) then (if snd t0 then u else n c - 1 - u)
                                else (if snd t1 then v else n c - 1 - v) in
       aget a' u v = aget a (w (tan0 (fst s))) (w (tan1 (fst s)))).
Proof.
  intros H. destruct a as [[m n] g].
  destruct x as [[] []], y as [[] []]; try discriminate H; destruct z as [[] []]; try discriminate H;
  destruct s as [[] []]; eexists; (split; [reflexivity|]); (split; [reflexivity|]); intros u v; reflexivity.
Qed.

Lemma inv_of o a b : legal o -> (fst (inv o b) = a <-> fst (o a) = b) /\ (fst (o a) = b -> snd (inv o b) = snd (o a)).
Proof.
  intros L. pose proof (legal_legalb _ L) as H. unfold legalb in H. unfold inv, inv_at.
  destruct (o I) as [xI sI] eqn:EI, (o J) as [xJ sJ] eqn:EJ, (o K) as [xK sK] eqn:EK; cbn [fst snd] in H.
  destruct xI, xJ, xK; cbn in H; try discriminate; clear H; destruct a; rewrite ?EI, ?EJ, ?EK; destruct b; cbn; split; try split; congruence.
Qed.

Lemma fst_flip_act o s : fst (S_Topology.flip (act o s)) = fst (o (fst s)).
Proof. unfold act, S_Topology.flip. destruct (snd s); reflexivity. Qed.

(** What the reoriented face holds. *)
Lemma reorient_at A B s o : legal o -> exists fa fb fa',
  let s' := S_Topology.flip (act o s) in
  extractFace A (faceNo s) = Some fa /\ extractFace B (faceNo s') = Some fb /\
  reorient (faceNo s) (faceNo s') (show (inv o)) fa = Some fa' /\
  ash fa' = (points A (fst (inv o (tan0 (fst s')))), points A (fst (inv o (tan1 (fst s'))))) /\
  ash fb = (points B (tan0 (fst s')), points B (tan1 (fst s'))) /\
  (forall u v, aget fb u v = node B (qOf B s' u v)) /\
  (forall u v, aget fa' u v = node A (pOf A s o (qOf B s' u v))).
Proof.
  intros L. destruct (extract_at A s) as (fa & Ea & Sa & Ga).
  destruct (extract_at B (S_Topology.flip (act o s))) as (fb & Eb & Sb & Gb).
  destruct (reorient_brute (o I) (o J) (o K) s fa (legal_legalb _ L)) as (fa' & E & Sh & G).
  assert (X : act (mk (o I) (o J) (o K)) s = act o s) by (unfold act; now rewrite <- mk_eta).
  change (inv (mk (o I) (o J) (o K))) with (inv o) in *. rewrite X in *.
  exists fa, fb, fa'. cbv zeta. split; [exact Ea|]. split; [exact Eb|]. split; [exact E|].
  cbv zeta in Sh, G. set (s' := S_Topology.flip (act o s)) in *.
  assert (F' : fst s' = fst (o (fst s))) by apply fst_flip_act.
  assert (N : forall c, c <> fst s -> (if axis_eqb c (tan0 (fst s)) then fst (ash fa) else snd (ash fa)) = points A c).
  { intros c Hc. rewrite Sa. cbn [fst snd]. destruct c, (fst s); cbn; try reflexivity; congruence. }
  assert (D0 : tan0 (fst s') <> fst s' /\ tan1 (fst s') <> fst s' /\ tan0 (fst s') <> tan1 (fst s') /\
     forall c, c <> fst s' -> c = tan0 (fst s') \/ c = tan1 (fst s')).
  { destruct (fst s'); cbn; repeat split; try congruence; intros []; auto; congruence. }
  destruct D0 as (D0 & D1 & D2 & D3).
  assert (T0 : fst (inv o (tan0 (fst s'))) <> fst s).
  { intros Q. apply (inv_of o) in Q; [|exact L]. congruence. }
  assert (T1 : fst (inv o (tan1 (fst s'))) <> fst s).
  { intros Q. apply (inv_of o) in Q; [|exact L]. congruence. }
  split; [rewrite Sh, !N by assumption; reflexivity|]. split; [exact Sb|]. split; [exact Gb|].
  intros u v. rewrite G, Ga. apply node_ext. intros a. unfold qOf at 1. unfold pOf.
  destruct (axis_eqb a (fst s)) eqn:Ea0; [reflexivity|].
  assert (Na : a <> fst s) by (intros ->; destruct (fst s); discriminate Ea0).
  assert (Q0 : fst (o a) <> fst s') by (rewrite F'; intros Q; apply L in Q; congruence).
  assert (W : forall c, c <> fst s -> c = a ->
     (if axis_eqb c (fst (inv o (tan0 (fst s')))) then (if snd (inv o (tan0 (fst s'))) then u else (if axis_eqb c (tan0 (fst s)) then fst (ash fa) else snd (ash fa)) - 1 - u)
      else if snd (inv o (tan1 (fst s'))) then v else (if axis_eqb c (tan0 (fst s)) then fst (ash fa) else snd (ash fa)) - 1 - v)
     = if snd (o a) then qOf B s' u v (fst (o a)) else points A a - 1 - qOf B s' u v (fst (o a))).
  { intros c Hc ->. rewrite !N by assumption. unfold qOf.
    replace (axis_eqb (fst (o a)) (fst s')) with false by (destruct (axis_eqb (fst (o a)) (fst s')) eqn:Q; [apply axis_eqb_eq in Q; congruence|reflexivity]).
    destruct (D3 _ Q0) as [Q|Q].
    - destruct (inv_of o a (tan0 (fst s')) L) as [I1 I2]. rewrite (proj2 I1 Q), (I2 Q).
      replace (axis_eqb a a) with true by (symmetry; now apply axis_eqb_eq).
      replace (axis_eqb (fst (o a)) (tan0 (fst s'))) with true by (symmetry; now apply axis_eqb_eq). reflexivity.
    - destruct (inv_of o a (tan1 (fst s')) L) as [I1 I2]. rewrite (I2 Q).
      replace (axis_eqb a (fst (inv o (tan0 (fst s'))))) with false.
      2:{ symmetry. destruct (axis_eqb a (fst (inv o (tan0 (fst s'))))) eqn:X2; [|reflexivity]. apply axis_eqb_eq in X2. symmetry in X2.
          apply (inv_of o) in X2; [|exact L]. congruence. }
      replace (axis_eqb (fst (o a)) (tan0 (fst s'))) with false by (destruct (axis_eqb (fst (o a)) (tan0 (fst s'))) eqn:X2; [apply axis_eqb_eq in X2; congruence|reflexivity]).
      reflexivity. }
  destruct (axis_eqb a (tan0 (fst s))) eqn:E0.
  - apply axis_eqb_eq in E0. rewrite <- W with (c := tan0 (fst s)); [reflexivity| |]; congruence.
  - assert (a = tan1 (fst s)) by (destruct a, (fst s); cbn in *; congruence).
    rewrite <- W with (c := tan1 (fst s)); [reflexivity| |]; congruence.
Qed.

(** The two descriptions of matching points agree. *)
Lemma partner_of A B s o u v : legal o -> sameExtent A B s o -> (forall a, 2 <= points A a) -> (forall a, 2 <= points B a) ->
  let s' := S_Topology.flip (act o s) in
  0 <= u < points B (tan0 (fst s')) -> 0 <= v < points B (tan1 (fst s')) ->
  partner A B s o (pOf A s o (qOf B s' u v)) (qOf B s' u v).
Proof.
  intros L X PA PB s' Hu Hv.
  assert (Q : forall a, 0 <= qOf B s' u v a < points B a).
  { intros a. unfold qOf. destruct (axis_eqb a (fst s')) eqn:E0.
    - apply axis_eqb_eq in E0. subst a. unfold plane. pose proof (PB (fst s')). destruct (snd s'); lia.
    - destruct (axis_eqb a (tan0 (fst s'))) eqn:E1; [apply axis_eqb_eq in E1; now subst|].
      assert (a = tan1 (fst s')) by (destruct a, (fst s'); cbn in *; congruence). now subst. }
  split; [|split].
  - split.
    + intros a. unfold pOf. destruct (axis_eqb a (fst s)) eqn:E0.
      * apply axis_eqb_eq in E0. subst a. unfold plane. pose proof (PA (fst s)). destruct (snd s); lia.
      * assert (a <> fst s) by (intros ->; destruct (fst s); discriminate E0).
        pose proof (Q (fst (o a))). rewrite X in H0 by assumption. destruct (snd (o a)); lia.
    + unfold pOf. replace (axis_eqb (fst s) (fst s)) with true by (symmetry; now apply axis_eqb_eq). reflexivity.
  - split; [exact Q|]. fold s'. unfold qOf. replace (axis_eqb (fst s') (fst s')) with true by (symmetry; now apply axis_eqb_eq). reflexivity.
  - intros a Ha. unfold pOf.
    replace (axis_eqb a (fst s)) with false by (destruct (axis_eqb a (fst s)) eqn:E; [apply axis_eqb_eq in E; congruence|reflexivity]).
    destruct (snd (o a)); lia.
Qed.
Lemma partner_is A B s o p q : legal o -> partner A B s o p q ->
  let s' := S_Topology.flip (act o s) in
  let u := q (tan0 (fst s')) in let v := q (tan1 (fst s')) in
  (forall a, q a = qOf B s' u v a) /\ (forall a, p a = pOf A s o (qOf B s' u v) a) /\
  0 <= u < points B (tan0 (fst s')) /\ 0 <= v < points B (tan1 (fst s')).
Proof.
  intros L ([P1 P2] & [Q1 Q2] & R) s' u v.
  assert (Q : forall a, q a = qOf B s' u v a).
  { intros a. unfold qOf. destruct (axis_eqb a (fst s')) eqn:E0.
    - apply axis_eqb_eq in E0. subst a. exact Q2.
    - destruct (axis_eqb a (tan0 (fst s'))) eqn:E1; [apply axis_eqb_eq in E1; now subst|].
      assert (a = tan1 (fst s')) by (destruct a, (fst s'); cbn in *; congruence). now subst. }
  split; [exact Q|]. split; [|split; apply Q1].
  intros a. unfold pOf. destruct (axis_eqb a (fst s)) eqn:E0.
  - apply axis_eqb_eq in E0. subst a. exact P2.
  - assert (N : a <> fst s) by (intros ->; destruct (fst s); discriminate E0).
    rewrite <- Q, R by exact N. destruct (snd (o a)); lia.
Qed.

Lemma shapes_agree A B s o : legal o ->
  let s' := S_Topology.flip (act o s) in
  (points A (fst (inv o (tan0 (fst s')))) = points B (tan0 (fst s')) /\
   points A (fst (inv o (tan1 (fst s')))) = points B (tan1 (fst s'))) <-> sameExtent A B s o.
Proof.
  intros L s'. assert (F' : fst s' = fst (o (fst s))) by apply fst_flip_act.
  assert (D : tan0 (fst s') <> fst s' /\ tan1 (fst s') <> fst s' /\
     forall c, c <> fst s' -> c = tan0 (fst s') \/ c = tan1 (fst s')).
  { destruct (fst s'); cbn; repeat split; try congruence; intros []; auto; congruence. }
  destruct D as (D0 & D1 & D3). split.
  - intros [E0 E1] a Na. assert (Q0 : fst (o a) <> fst s') by (rewrite F'; intros Q; apply L in Q; congruence).
    destruct (D3 _ Q0) as [Q|Q]; rewrite Q; [rewrite <- E0|rewrite <- E1]; f_equal; now apply (inv_of o).
  - intros X.
    assert (G : forall c, c <> fst s' -> points A (fst (inv o c)) = points B c).
    { intros c Hc. set (a := fst (inv o c)). assert (Q : fst (o a) = c) by (now apply (inv_of o)).
      rewrite <- X, Q; [reflexivity|]. intros E. rewrite E in Q. congruence. }
    auto.
Qed.

Lemma indices_in sh u v : In (u, v) (indices sh) <-> 0 <= u < fst sh /\ 0 <= v < snd sh.
Proof.
  unfold indices. rewrite in_flat_map. split.
  - intros (i & Hi & H). apply in_map_iff in H as (j & E & Hj). apply in_seq in Hi, Hj. injection E as <- <-. lia.
  - intros [Hu Hv]. exists (Z.to_nat u). split; [apply in_seq; lia|]. apply in_map_iff. exists (Z.to_nat v).
    split; [f_equal; lia|apply in_seq; lia].
Qed.

Lemma fold_Rmax_ge l : forall x t, (t < fold_left Rmax l x)%R <-> (t < x)%R \/ exists y, In y l /\ (t < y)%R.
Proof.
  induction l as [|z l IH]; intros x t; cbn.
  - split; [auto|intros [H|(y & [] & _)]; exact H].
  - rewrite IH. split.
    + intros [H|(y & I & H)]; [|right; exists y; auto].
      unfold Rmax in H. destruct Rle_dec; [right; exists z; auto|auto].
    + intros [H|(y & [<-|I] & H)].
      * left. eapply Rlt_le_trans; [exact H|apply Rmax_l].
      * left. eapply Rlt_le_trans; [exact H|apply Rmax_r].
      * right. eauto.
Qed.
Lemma npMax_above l : l <> [] -> exists m, npMax l = Some m /\ (above m = true <-> exists y, In y l /\ (1 / 10 ^ 10 < y)%R).
Proof.
  destruct l as [|x l]; [congruence|]. intros _. exists (fold_left Rmax l x). split; [reflexivity|].
  unfold above. destruct Rlt_dec as [H|H].
  - split; [intros _|reflexivity]. apply fold_Rmax_ge in H as [H|(y & I & H)]; [exists x|exists y]; cbn; auto.
  - split; [discriminate|]. intros (y & I & Hy). exfalso. apply H. apply fold_Rmax_ge. cbn in I. destruct I as [<-|I]; [auto|right; eauto].
Qed.

(** Comparison of two faces of equal, non-empty shape. *)
Lemma compare_spec a b : 0 < fst (ash a) -> 0 < snd (ash a) ->
  (ash a <> ash b -> compareFaces a b = None) /\
  (ash a = ash b -> exists w, compareFaces a b = Some w /\
     (w = false <-> forall u v, 0 <= u < fst (ash b) -> 0 <= v < snd (ash b) -> near (aget a u v) (aget b u v))).
Proof.
  intros P0 P1. unfold compareFaces. split.
  - intros N. destruct (ash a) as [x y], (ash b) as [x' y']. cbn [fst snd].
    destruct (Z.eqb_spec x x'), (Z.eqb_spec y y'); cbn; try reflexivity. congruence.
  - intros E. rewrite <- E, !Z.eqb_refl. cbn [andb].
    assert (NE : forall c : R * R * R -> R, map (fun p => Rabs (c (aget a (fst p) (snd p)) - c (aget b (fst p) (snd p)))) (indices (ash a)) <> []).
    { intros c Q. apply map_eq_nil in Q. assert (I : In (0, 0) (indices (ash a))) by (apply indices_in; lia). rewrite Q in I. destruct I. }
    destruct (npMax_above _ (NE (fun p => fst (fst p)))) as (mx & -> & Hx).
    destruct (npMax_above _ (NE (fun p => snd (fst p)))) as (my & -> & Hy).
    destruct (npMax_above _ (NE (fun p => snd p))) as (mz & -> & Hz).
    eexists. split; [reflexivity|].
    assert (CH : forall c m, (above m = true <-> exists y, In y (map (fun p => Rabs (c (aget a (fst p) (snd p)) - c (aget b (fst p) (snd p)))) (indices (ash a))) /\ (1 / 10 ^ 10 < y)%R) ->
       (above m = false <-> forall u v, 0 <= u < fst (ash a) -> 0 <= v < snd (ash a) -> (Rabs (c (aget a u v) - c (aget b u v)) <= 1 / 10 ^ 10)%R)).
    { intros c m H. split.
      - intros F u v Hu Hv. apply Rnot_lt_le. intros X. assert (T : above m = true).
        { apply H. eexists. split; [apply in_map_iff; exists (u, v); split; [reflexivity|now apply indices_in]|exact X]. }
        congruence.
      - intros F. destruct (above m) eqn:T; [|reflexivity]. destruct H as [H _]. destruct (H eq_refl) as (y & I & Y).
        apply in_map_iff in I as ([u v] & <- & I). apply indices_in in I as [Iu Iv]. pose proof (F u v Iu Iv). cbn [fst snd] in Y. lra. }
    apply (CH (fun p => fst (fst p))) in Hx. apply (CH (fun p => snd (fst p))) in Hy. apply (CH (fun p => snd p)) in Hz. rewrite !orb_false_iff, Hx, Hy, Hz. unfold near. split.
    + intros [[F1 F2] F3] u v Hu Hv. pose proof (F1 u v Hu Hv). pose proof (F2 u v Hu Hv). pose proof (F3 u v Hu Hv).
      destruct (aget a u v) as [[? ?] ?], (aget b u v) as [[? ?] ?]. cbn in *. auto.
    + intros F. repeat split; intros u v Hu Hv; pose proof (F u v Hu Hv) as G; destruct (aget a u v) as [[? ?] ?], (aget b u v) as [[? ?] ?]; cbn in *; tauto.
Qed.

Lemma warns_spec {A} (f : A -> option bool) l :
  (warns f l <> None <-> forall x, In x l -> f x <> None) /\
  (warns f l = Some false <-> forall x, In x l -> f x = Some false).
Proof.
  induction l as [|x l [IH1 IH2]]; cbn.
  - split; split; try congruence; try tauto.
  - split; split.
    + intros H y [<-|I]; [destruct (f x); congruence|]. apply IH1; [|exact I]. destruct (f x); [|congruence]. destruct (warns f l); congruence.
    + intros H. destruct (f x) eqn:E; [|exfalso; apply (H x); auto]. destruct (warns f l); [congruence|].
      exfalso. apply IH1; [|reflexivity]. intros y I. apply H. auto.
    + intros H. destruct (f x) as [w|] eqn:E; [|discriminate]. destruct (warns f l) as [w'|]; [|discriminate].
      assert (W : w || w' = false) by congruence. apply orb_false_iff in W as [-> ->]. intros y [<-|I]; [exact E|]. now apply (proj1 IH2 eq_refl).
    + intros H. rewrite (H x) by auto. rewrite (proj2 IH2); [reflexivity|]. intros y I. apply H. auto.
Qed.
