(** Cancellation of shared faces. *)
From Coq Require Import Reals ZArith String List Bool Lia Lra Permutation.
From Verif Require Import M_Topology S_Topology M_Halo S_Halo M_Grid M_Metrics M_Flux S_Sum S_Flux L_Topology L_Halo3 L_Halo4 L_Grid1 L_Sum L_Flux1.
Import ListNotations.
Open Scope R_scope.

Lemma inverse_facts o o' : inverse o o' -> forall a, fst (o' (fst (o a))) = a /\ snd (o' (fst (o a))) = snd (o a).
Proof.
  intros H a. specialize (H (a, true)). unfold act in H. cbn [fst snd] in H. destruct (o a) as [b []]; cbn [fst snd] in *.
  - rewrite H. auto.
  - unfold flip in H. destruct (o' b) as [c u]. cbn [fst snd] in *. injection H as -> Hu. split; auto. destruct u; auto; discriminate.
Qed.
Lemma inverse_back o o' : legal o -> inverse o o' -> inverse o' o.
Proof.
  intros L H s. assert (E: exists t, act o t = s).
  { destruct s as [b u]. assert (X: exists a, fst (o a) = b).
    { pose proof (L I J). pose proof (L I K). pose proof (L J K).
      destruct (o I) as [x ?] eqn:E1, (o J) as [y ?] eqn:E2, (o K) as [z ?] eqn:E3. cbn [fst] in *.
      destruct x, y, z, b; try (exists I; rewrite E1; reflexivity); try (exists J; rewrite E2; reflexivity); try (exists K; rewrite E3; reflexivity);
      exfalso; first [assert (I = J) by auto; discriminate|assert (I = K) by auto; discriminate|assert (J = K) by auto; discriminate]. }
    destruct X as [a <-]. exists (a, if snd (o a) then u else negb u). unfold act. cbn [fst snd]. destruct (o a) as [c []], u; reflexivity. }
  destruct E as [t <-]. now rewrite H.
Qed.

Lemma faceLo_co d ng s a : co (faceLo d ng s) a = (if axis_eqb a (fst s) then (if snd s then dim d (fst s) + ng - 1 else ng) else ng)%Z.
Proof. destruct s as [[] []], a; reflexivity. Qed.
Lemma faceHi_co d ng s a : co (faceHi d ng s) a = (if axis_eqb a (fst s) then (if snd s then dim d (fst s) + ng - 1 else ng) + 1 else dim d a + ng - 1)%Z.
Proof. destruct s as [[] []], a; reflexivity. Qed.
Lemma axis_eqb_spec a b : reflect (a = b) (axis_eqb a b).
Proof. destruct a, b; constructor; congruence. Qed.

Section Glue.
Variables (ng : Z) (dA dB : dims) (o o' : orient) (s : saxis).
Hypotheses (L : legal o) (V : inverse o o').
Hypothesis HD : forall a, a <> fst s -> dim dB (fst (o a)) = dim dA a.
Let s' := flip (act o s).
Definition gpt (p : pt) : pt := mkpt (fun a' =>
  if axis_eqb a' (fst s') then (if snd s' then dim dB (fst s') + ng - 1 else ng)
  else let a := fst (o' a') in if snd (o' a') then co p a else dim dA a + 2 * ng - 2 - co p a)%Z.

Lemma fst_s' : fst s' = fst (o (fst s)).
Proof. unfold s', act. destruct (snd s); cbn [fst flip]; reflexivity. Qed.
Lemma V' : inverse o' o. Proof. now apply inverse_back. Qed.
Lemma o_o' a' : fst (o (fst (o' a'))) = a'. Proof. apply (inverse_facts o' o V'). Qed.

Lemma gpt_in p : (forall a, co (faceLo dA ng s) a <= co p a < co (faceHi dA ng s) a)%Z ->
  (forall a, co (faceLo dB ng s') a <= co (gpt p) a < co (faceHi dB ng s') a)%Z.
Proof.
  intros H a'. rewrite faceLo_co, faceHi_co. unfold gpt. rewrite co_mkpt. destruct (axis_eqb_spec a' (fst s')) as [E|E]; [destruct (snd s'); lia|].
  cbv zeta. set (a := fst (o' a')). assert (Ea: a' = fst (o a)) by (unfold a; now rewrite o_o').
  assert (Na: a <> fst s) by (intros X; apply E; rewrite fst_s', Ea, X; reflexivity).
  specialize (H a). rewrite faceLo_co, faceHi_co in H. destruct (axis_eqb_spec a (fst s)); [contradiction|].
  rewrite Ea, HD by auto. destruct (snd (o' (fst (o a)))); lia.
Qed.

Lemma gpt_glued p : (forall a, co (faceLo dA ng s) a <= co p a < co (faceHi dA ng s) a)%Z ->
  glued ng dA dB s o (posF (fst s) p) (posF (fst (o (fst s))) (gpt p)).
Proof.
  intros H a. cbv zeta. destruct (inverse_facts o o' V a) as [F1 F2].
  destruct (axis_eqb_spec a (fst s)) as [E|E].
  - subst a. unfold posF. destruct (axis_eqb_spec (fst s) (fst s)); [|congruence]. destruct (axis_eqb_spec (fst (o (fst s))) (fst (o (fst s)))); [|congruence].
    unfold gpt. rewrite co_mkpt. rewrite fst_s'. destruct (axis_eqb_spec (fst (o (fst s))) (fst (o (fst s)))); [|congruence].
    specialize (H (fst s)). rewrite faceLo_co, faceHi_co in H. destruct (axis_eqb_spec (fst s) (fst s)); [|congruence].
    fold s'. unfold facePlane. rewrite fst_s'. destruct (snd s'), (snd s), (snd (o (fst s))); lia.
  - unfold posF. destruct (axis_eqb_spec (fst s) a); [congruence|]. destruct (axis_eqb_spec (fst (o (fst s))) (fst (o a))) as [X|X]; [exfalso; apply E; symmetry; now apply L|].
    unfold gpt. rewrite co_mkpt, fst_s'. destruct (axis_eqb_spec (fst (o a)) (fst (o (fst s)))); [congruence|]. rewrite F1, F2.
    destruct (snd (o a)); lia.
Qed.

Lemma gpt_inj p q : (forall a, co (faceLo dA ng s) a <= co p a < co (faceHi dA ng s) a)%Z -> (forall a, co (faceLo dA ng s) a <= co q a < co (faceHi dA ng s) a)%Z ->
  gpt p = gpt q -> p = q.
Proof.
  intros Hp Hq E. apply pt_ext. intros a. destruct (axis_eqb_spec a (fst s)) as [->|N].
  - specialize (Hp (fst s)). specialize (Hq (fst s)). rewrite faceLo_co, faceHi_co in *. destruct (axis_eqb_spec (fst s) (fst s)); [lia|congruence].
  - apply (f_equal (fun p => co p (fst (o a)))) in E. unfold gpt in E. rewrite !co_mkpt, fst_s' in E.
    destruct (axis_eqb_spec (fst (o a)) (fst (o (fst s)))) as [X|X]; [exfalso; apply N; now apply L|].
    destruct (inverse_facts o o' V a) as [F1 F2]. rewrite F1 in E. destruct (snd (o' (fst (o a)))); lia.
Qed.
End Glue.

(** cardinality of the two faces agree, so the glue map is a bijection; we use the map back *)
Lemma inverse_legal o o' : legal o -> inverse o o' -> legal o'.
Proof.
  intros L V a b E. pose proof (inverse_facts o' o (inverse_back o o' L V)) as F. destruct (F a) as [<- _], (F b) as [<- _]. now rewrite E.
Qed.

Lemma glue_perm ng dA dB o o' s : legal o -> inverse o o' -> (forall a, a <> fst s -> dim dB (fst (o a)) = dim dA a) ->
  Permutation (map (gpt ng dA dB o o' s) (pts (faceLo dA ng s) (faceHi dA ng s))) (pts (faceLo dB ng (flip (act o s))) (faceHi dB ng (flip (act o s)))).
Proof.
  intros L V HD. pose proof (inverse_back o o' L V) as V'. pose proof (inverse_legal o o' L V) as L'.
  set (s' := flip (act o s)).
  assert (Es: flip (act o' s') = s). { unfold s'. rewrite act_flip, flip_flip. apply V. }
  assert (F1: fst s' = fst (o (fst s))) by (unfold s', act; destruct (snd s); reflexivity).
  assert (HD': forall a, a <> fst s' -> dim dA (fst (o' a)) = dim dB a).
  { intros a Na. rewrite <- (HD (fst (o' a))). - destruct (inverse_facts o' o V' a) as [-> _]. reflexivity.
    - intros X. apply Na. rewrite F1, <- X. symmetry. apply (inverse_facts o' o V' a). }
  apply Permutation_sym. apply NoDup_Permutation_bis.
  - apply pts_NoDup.
  - rewrite map_length.
    assert (I2: incl (map (gpt ng dA dB o o' s) (pts (faceLo dA ng s) (faceHi dA ng s))) (pts (faceLo dB ng s') (faceHi dB ng s'))).
    { intros p Hp. apply in_map_iff in Hp as (q & <- & Hq). apply pts_in. rewrite pts_in in Hq.
      exact (gpt_in ng dA dB o o' s L V HD q Hq). }
    assert (N1: NoDup (map (gpt ng dA dB o o' s) (pts (faceLo dA ng s) (faceHi dA ng s)))).
    { assert (G: forall l, (forall p, In p l -> forall a, co (faceLo dA ng s) a <= co p a < co (faceHi dA ng s) a)%Z -> NoDup l -> NoDup (map (gpt ng dA dB o o' s) l)).
      { induction l as [|x l IH]; intros HI Nd; simpl; [constructor|]. apply NoDup_cons_iff in Nd as [Hni Hnd]. constructor.
        - intros X. apply in_map_iff in X as (y & Ey & Hy). apply gpt_inj in Ey; auto; [apply Hni; rewrite <- Ey; exact Hy|apply HI; now right|apply HI; now left].
        - apply IH; auto. intros; apply HI; now right. }
      apply G; [|apply pts_NoDup]. intros p Hp. now apply pts_in. }
    pose proof (NoDup_incl_length N1 I2) as LE. rewrite map_length in LE. exact LE.
  - intros q Hq.
    (* q = gpt (gpt' q) *)
    apply in_map_iff. exists (gpt ng dB dA o' o s' q). rewrite pts_in in Hq. split.
    + apply pt_ext. intros a'. unfold gpt. rewrite !co_mkpt. fold s'. rewrite Es.
      destruct (axis_eqb_spec a' (fst s')) as [E|E].
      * specialize (Hq a'). rewrite faceLo_co, faceHi_co in Hq. destruct (axis_eqb_spec a' (fst s')); [|contradiction]. lia.
      * cbv zeta. rewrite ?co_mkpt. destruct (inverse_facts o' o V' a') as [G1 G2]. 
        destruct (axis_eqb_spec (fst (o' a')) (fst s)) as [X|X]; [exfalso; apply E; rewrite F1, <- X; symmetry; exact G1|].
        rewrite G1, G2. destruct (snd (o' a')) eqn:Es'; [reflexivity|]. rewrite (HD' a' E). lia.
    + apply pts_in. pose proof (gpt_in ng dB dA o' o s' L' V' HD' q Hq) as G. rewrite Es in G. exact G.
Qed.

Lemma shared_cancel ng w F l A f B o o' s : sameTransfer ng w F l -> joined w A f B o -> outward (nface f) s -> inverse o o' ->
  (forall a, a <> fst s -> dim (sb_dims B) (fst (o a)) = dim (sb_dims A) a) ->
  outflow (sb_dims A) ng (F (num A)) l s + outflow (sb_dims B) ng (F (num B)) l (flip (act o s)) = 0.
Proof.
  intros ST Jn Ou V HD. assert (L: legal o) by apply Jn.
  unfold outflow. rewrite !sum3_pts. rewrite <- (sumR_perm _ _ _ (glue_perm ng (sb_dims A) (sb_dims B) o o' s L V HD)).
  rewrite sumR_map.
  assert (E: sumR (at3 (fluxOf (F (num A)) l (fst s))) (pts (faceLo (sb_dims A) ng s) (faceHi (sb_dims A) ng s)) =
     (if snd (o (fst s)) then 1 else -1) * sumR (fun p => at3 (fluxOf (F (num B)) l (fst (o (fst s)))) (gpt ng (sb_dims A) (sb_dims B) o o' s p)) (pts (faceLo (sb_dims A) ng s) (faceHi (sb_dims A) ng s))).
  { rewrite <- sumR_scale. apply sumR_ext. intros p Hp. rewrite pts_in in Hp. eapply ST; eauto. apply gpt_glued; auto. }
  rewrite E. replace (fst (flip (act o s))) with (fst (o (fst s))) by (unfold act; destruct (snd s); reflexivity).
  unfold act. destruct (o (fst s)) as [b []], (snd s); cbn [fst snd flip negb]; ring.
Qed.

(** a list whose elements pair off by a symmetric matching with opposite values sums to zero *)
Lemma F2_length {A B} (P : A -> B -> Prop) l m : Forall2 P l m -> length l = length m.
Proof. induction 1; simpl; congruence. Qed.
Lemma pair_cancel {X} (L : list X) (M : X -> X -> Prop) (v : X -> R) : NoDup L ->
  (forall x, In x L -> exists y, In y L /\ M x y) -> (forall x x' y, In x L -> In x' L -> M x y -> M x' y -> x = x') ->
  (forall x y, In x L -> In y L -> M x y -> v x + v y = 0) -> sumR v L = 0.
Proof.
  intros Nd Ex Inj Op.
  assert (G: forall l, incl l L -> exists ys, Forall2 (fun x y => In x L /\ In y L /\ M x y) l ys).
  { induction l as [|x l IH]; intros Hl; [exists []; constructor|]. destruct IH as [ys H]; [intros z Hz; apply Hl; now right|].
    destruct (Ex x) as (y & Hy & My); [apply Hl; now left|]. exists (y :: ys). constructor; auto. split; [apply Hl; now left|auto]. }
  destruct (G L (incl_refl L)) as [ys H]. clear G.
  assert (Hin: forall y, In y ys -> In y L). { assert (G: forall l ys, Forall2 (fun x y => In x L /\ In y L /\ M x y) l ys -> forall y, In y ys -> In y L).
    { induction 1 as [|x y l ys' (A & B & C) F IH]; intros z Hz; [destruct Hz|]. destruct Hz as [<-|Hz]; auto. }
    eapply G; eauto. }
  assert (NdY: NoDup ys).
  { assert (Gx: forall l ys, Forall2 (fun x y => In x L /\ In y L /\ M x y) l ys -> NoDup l -> NoDup ys).
    { clear - Inj. induction 1 as [|x y l ys (Hx & Hy & Mx) F IH]; intros N; [constructor|]. inversion N; subst. constructor; auto.
      intros Hin. assert (exists x', In x' l /\ In x' L /\ M x' y).
      { clear - F Hin. induction F as [|x' y' l ys (A & B & C) F IH]; [destruct Hin|]. destruct Hin as [->|Hin]; [exists x'; split; [now left|auto]|].
        destruct (IH Hin) as (z & Z1 & Z2). exists z. split; [now right|auto]. }
      destruct H as (x' & H' & H'' & M'). assert (x = x') by (eapply Inj; eauto). subst. contradiction. }
    eapply Gx; eauto. }
  assert (P: Permutation ys L).
  { apply NoDup_Permutation_bis; auto. rewrite <- (F2_length _ _ _ H). auto. }
  assert (E: sumR v L + sumR v ys = 0).
  { assert (G: forall l ys, Forall2 (fun x y => In x L /\ In y L /\ M x y) l ys -> sumR v l + sumR v ys = 0).
    { unfold sumR. induction 1 as [|x y l ys' (A & B & C) F IH]; simpl; [lra|]. specialize (Op x y A B C). lra. }
    eapply G; eauto. }
  rewrite (sumR_perm v _ _ P) in E. lra.
Qed.

Definition connFacesOf (A : sblock) : list face := filter (fun f => match neighbor f with None => false | Some _ => true end) (faces (sb_topo A)).
Lemma split_faces A (v : face -> R) : sumR v (faces (sb_topo A)) = sumR v (boundaryFaces A) + sumR v (connFacesOf A).
Proof.
  unfold boundaryFaces, connFacesOf. induction (faces (sb_topo A)) as [|f fs IH]; simpl; [unfold sumR; simpl; lra|].
  unfold sumR in *. simpl. destruct (neighbor f); simpl; lra.
Qed.
Lemma dirOf_outward n s : outward n s -> dirOf n = s.
Proof. intros H. apply outward_range in H as [R ->]. assert (n = 1 \/ n = 2 \/ n = 3 \/ n = 4 \/ n = 5 \/ n = 6)%Z by lia. intuition; subst; reflexivity. Qed.
Lemma outward_dirOf n : (1 <= n <= 6)%Z -> outward n (dirOf n).
Proof. intros R. assert (n = 1 \/ n = 2 \/ n = 3 \/ n = 4 \/ n = 5 \/ n = 6)%Z by lia. intuition; subst; reflexivity. Qed.
Lemma dirOf_inj n m : (1 <= n <= 6)%Z -> (1 <= m <= 6)%Z -> dirOf n = dirOf m -> n = m.
Proof. intros R R' E. assert (n = 1 \/ n = 2 \/ n = 3 \/ n = 4 \/ n = 5 \/ n = 6)%Z by lia. assert (m = 1 \/ m = 2 \/ m = 3 \/ m = 4 \/ m = 5 \/ m = 6)%Z by lia.
  intuition; subst; auto; discriminate E. Qed.

Lemma multi_cancel ng w F l : conforming ng w -> sameTransfer ng w F l ->
  sumR (fun A => sumR (fun f => outflow (sb_dims A) ng (F (num A)) l (dirOf (nface f))) (connFacesOf A)) (blocksOf w) = 0.
Proof.
  intros (Hng & ND & HB & HC) ST.
  set (L := flat_map (fun A => map (fun f => (A, f)) (connFacesOf A)) (blocksOf w)).
  set (v := fun x : sblock * face => outflow (sb_dims (fst x)) ng (F (num (fst x))) l (dirOf (nface (snd x)))).
  transitivity (sumR v L).
  { unfold L. rewrite sumR_flat_map. apply sumR_ext. intros A _. rewrite sumR_map. reflexivity. }
  assert (InL: forall A f, In (A, f) L <-> In A (blocksOf w) /\ In f (faces (sb_topo A)) /\ neighbor f <> None).
  { intros A f. unfold L. rewrite in_flat_map. split.
    - intros (A' & HA & H). apply in_map_iff in H as (f' & E & Hf). injection E as -> ->. apply filter_In in Hf as [Hf Hn]. split; auto. split; auto. destruct (neighbor f); [discriminate|discriminate Hn].
    - intros (HA & Hf & Hn). exists A. split; auto. apply in_map_iff. exists f. split; auto. apply filter_In. split; auto. destruct (neighbor f); auto. }
  assert (numInj: forall A B, In A (blocksOf w) -> In B (blocksOf w) -> num A = num B -> A = B).
  { clear - ND. revert ND. induction (blocksOf w) as [|x ws IH]; simpl; intros ND A B HA HB E; [destruct HA|]. inversion ND; subst.
    destruct HA as [<-|HA], HB as [<-|HB]; auto.
    - exfalso. apply H1. rewrite E. now apply in_map.
    - exfalso. apply H1. rewrite <- E. now apply in_map. }
  assert (faceInj: forall A f g, In A (blocksOf w) -> In f (faces (sb_topo A)) -> In g (faces (sb_topo A)) -> nface f = nface g -> f = g).
  { intros A f g HA Hf Hg E. destruct (HB A HA) as [HS _]. assert (N: NoDup (map nface (faces (sb_topo A)))) by (rewrite HS; repeat constructor; simpl; intuition lia).
    clear - Hf Hg E N. revert N Hf Hg. induction (faces (sb_topo A)) as [|x fs IH]; simpl; intros N Hf Hg; [destruct Hf|]. inversion N; subst.
    destruct Hf as [<-|Hf], Hg as [<-|Hg]; auto.
    - exfalso. apply H1. rewrite E. now apply in_map.
    - exfalso. apply H1. rewrite <- E. now apply in_map. }
  assert (faceR: forall A f, In A (blocksOf w) -> In f (faces (sb_topo A)) -> (1 <= nface f <= 6)%Z).
  { intros A f HA Hf. destruct (HB A HA) as [HS _]. apply (in_map nface) in Hf. rewrite HS in Hf. simpl in Hf. lia. }
  apply (pair_cancel L (fun x y => exists o o' s, joined w (fst x) (snd x) (fst y) o /\ inverse o o' /\ outward (nface (snd x)) s /\
       joined w (fst y) (snd y) (fst x) o' /\ outward (nface (snd y)) (flip (act o s)) /\
       (forall a, a <> fst s -> dim (sb_dims (fst y)) (fst (o a)) = dim (sb_dims (fst x)) a))).
  - unfold L. apply NoDup_flat_map.
    + eapply NoDup_map_inv; eauto.
    + intros A HA. apply FinFun.Injective_map_NoDup; [intros x y E; congruence|]. apply NoDup_filter. destruct (HB A HA) as [HS _].
      apply (NoDup_map_inv nface). rewrite HS. repeat constructor; simpl; intuition lia.
    + intros A A' z _ _ H1 H2. apply in_map_iff in H1 as (? & <- & _). apply in_map_iff in H2 as (? & E & _). congruence.
  - intros [A f] H. apply InL in H as (HA & Hf & Hn). destruct (neighbor f) as [n|] eqn:En; [|congruence].
    destruct (HC A f n HA Hf En) as (B & o & g & o' & s & J1 & _ & V & O1 & J2 & O2 & D).
    exists (B, g). split.
    + apply InL. destruct J2 as (X1 & X2 & _ & X3 & _). split; auto. split; auto. congruence.
    + exists o, o', s. cbn [fst snd]. repeat split; auto; try apply J1; try apply J2.
  - intros [A f] [A' f'] [B g] H H' (o & o' & s & J1 & V & O1 & J2 & O2 & _) (p & p' & t & K1 & W & P1 & K2 & P2 & _). cbn [fst snd] in *.
    assert (EA: A = A').
    { destruct J2 as (_ & _ & HA & En & _), K2 as (_ & _ & HA' & En' & _). apply numInj; auto. congruence. }
    subst A'. f_equal.
    assert (Eo: forall a, o' a = p' a).
    { apply show_inj. destruct J2 as (_ & _ & _ & _ & _ & S1), K2 as (_ & _ & _ & _ & _ & S2). congruence. }
    assert (Es: s = t).
    { apply dirOf_outward in O2, P2. assert (Q: flip (act o s) = flip (act p t)) by congruence.
      apply (f_equal flip) in Q. rewrite !flip_flip in Q. rewrite <- (V s), <- (W t). rewrite Q. now apply act_ext. }
    subst t. apply (faceInj A); try apply J1; try apply K1.
    apply dirOf_inj; [apply (faceR A); apply J1|apply (faceR A); apply K1|]. apply dirOf_outward in O1, P1. congruence.
  - intros [A f] [B g] H H' (o & o' & s & J1 & V & O1 & J2 & O2 & D). unfold v. cbn [fst snd] in *.
    rewrite (dirOf_outward _ _ O1), (dirOf_outward _ _ O2). eapply shared_cancel; eauto.
Qed.
