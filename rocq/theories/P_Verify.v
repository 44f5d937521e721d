(** Properties C79 and C112: grid verification.  Vocabulary: S_Verify.  Model: M_Verify. *)
From Coq Require Import ZArith String Ascii List Bool Lia Reals Lra.
From Verif Require Import M_Topology S_Topology L_Topology L_Halo1 M_Cut S_Cut L_Cut L_Cut2 M_Verify S_Verify L_Verify.
Import ListNotations.
Open Scope Z_scope.

Local Opaque extractFace reorient compareFaces.

Lemma incl_by l l' : forallb (fun x => existsb (String.eqb x) l') l = true -> incl l l'.
Proof.
  intros H x I. rewrite forallb_forall in H. specialize (H x I). apply existsb_exists in H as (y & Iy & E).
  apply String.eqb_eq in E. now subst.
Qed.

Lemma unconnected_spec f : unconnectedOK f = true <->
  (isBoundaryType (bcType f) /\ orientation f = None /\ (needsNoFamily (bcType f) \/ bcFam f <> None)) /\
  bcType f <> "stagnationSubsonicInlet"%string.
Proof.
  unfold unconnectedOK. rewrite !andb_true_iff, negb_true_iff, orb_true_iff.
  assert (EX : forall l, existsb (String.eqb (bcType f)) l = true <-> In (bcType f) l).
  { intros l. rewrite existsb_exists. split; [intros (x & I & E); apply String.eqb_eq in E; now rewrite E|intros I; exists (bcType f); split; [exact I|apply String.eqb_refl]]. }
  rewrite !EX. rewrite <- not_true_iff_false, EX. unfold isBoundaryType, needsNoFamily, connectionTypes.
  assert (O : (match orientation f with None => true | Some _ => false end = true) <-> orientation f = None) by (destruct (orientation f); split; congruence).
  assert (F : (match bcFam f with None => false | Some _ => true end = true) <-> bcFam f <> None) by (destruct (bcFam f); split; congruence).
  rewrite O, F.
  assert (B : In (bcType f) boundaryTypes <-> (In (bcType f) ["constantVelocitySubsonicInlet"; "supersonicInlet"; "constantMassFluxSubsonicInlet"; "cubicSplineSubsonicInlet";
     "constantPressureSubsonicExit"; "supersonicExit"; "adiabaticNoSlipWall"; "adiabaticSlipWall"; "adiabaticMovingWall"; "isoTNoSlipWall"; "isoTSlipWall"; "isoTMovingWall"]%string
     \/ In (bcType f) ["b0"; "periodicTransLow"; "periodicTransHigh"; "periodicRotLow"; "periodicRotHigh"]%string
     \/ bcType f = "stagnationSubsonicInlet"%string)).
  { split.
    - intros X. assert (Y : In (bcType f) (["constantVelocitySubsonicInlet"; "supersonicInlet"; "constantMassFluxSubsonicInlet"; "cubicSplineSubsonicInlet";
     "constantPressureSubsonicExit"; "supersonicExit"; "adiabaticNoSlipWall"; "adiabaticSlipWall"; "adiabaticMovingWall"; "isoTNoSlipWall"; "isoTSlipWall"; "isoTMovingWall"]%string ++
     ["b0"; "periodicTransLow"; "periodicTransHigh"; "periodicRotLow"; "periodicRotHigh"]%string ++ ["stagnationSubsonicInlet"]%string)) by (revert X; apply incl_by; reflexivity).
      apply in_app_iff in Y as [Y|Y]; [auto|]. apply in_app_iff in Y as [Y|[Y|[]]]; auto.
    - intros [X|[X|X]]; [revert X; apply incl_by; reflexivity|revert X; apply incl_by; reflexivity|]. rewrite X. cbn. tauto. }
  assert (S : In (bcType f) ["constantVelocitySubsonicInlet"; "supersonicInlet"; "constantMassFluxSubsonicInlet"; "cubicSplineSubsonicInlet";
     "constantPressureSubsonicExit"; "supersonicExit"; "adiabaticNoSlipWall"; "adiabaticSlipWall"; "adiabaticMovingWall"; "isoTNoSlipWall"; "isoTSlipWall"; "isoTMovingWall"]%string
     -> bcType f <> "stagnationSubsonicInlet"%string).
  { intros I E. rewrite E in I. cbn in I. repeat (destruct I as [I|I]; [discriminate I|]). exact I. }
  assert (W : In (bcType f) ["supersonicExit"; "adiabaticNoSlipWall"; "adiabaticSlipWall"]%string <-> In (bcType f) ["supersonicExit"; "adiabaticSlipWall"; "adiabaticNoSlipWall"]%string).
  { cbn. tauto. }
  rewrite B, W. clear - S. tauto.
Qed.

(** [periodicMove] applies [carried] to every point, when it does not raise. *)
Lemma move_spec g a :
  (periodicMove g a <> None <-> ~ rotational (bcType (topo g)) /\ periodicData g) /\
  (forall a', periodicMove g a = Some a' -> ash a' = ash a /\ forall u v x, carried g (aget a u v) x <-> x = aget a' u v).
Proof.
  unfold periodicMove, rotational, periodicData, translational, carried.
  assert (EQ : forall t, String.eqb (bcType (topo g)) t = true <-> bcType (topo g) = t) by (intros; apply String.eqb_eq).
  destruct (String.eqb_spec (bcType (topo g)) "periodicTransLow") as [E1|N1];
    [|destruct (String.eqb_spec (bcType (topo g)) "periodicTransHigh") as [E2|N2];
      [|destruct (String.eqb_spec (bcType (topo g)) "periodicRotLow") as [E3|N3];
        [|destruct (String.eqb_spec (bcType (topo g)) "periodicRotHigh") as [E4|N4]]]].
  - rewrite E1. destruct (paxis g) as [[[ax ay] az]|], (span g) as [sp|]; split; try split; try discriminate; try congruence.
    + intros _. split; [|eauto]. intros H. cbn in H. repeat (destruct H as [H|H]; [discriminate H|]). exact H.
    + injection H as <-. reflexivity.
    + assert (Q : a' = mkFA (ash a) (fun u v => let '(x, y, z) := aget a u v in (x + ax * sp, y + ay * sp, z + az * sp)%R)) by congruence.
      subst a'. cbn [aget]. intros u v x. destruct (aget a u v) as [[x1 x2] x3]. split.
      * intros [[_ (b1 & b2 & b3 & b4 & B1 & B2 & ->)]|[[X _]|[X _]]]; [|discriminate X|congruence]. congruence.
      * intros ->. left. split; [reflexivity|]. exists ax, ay, az, sp. auto.
    + intros [_ H]. destruct H as [_ [d D]]; [cbn; auto|discriminate D].
    + intros [_ H]. destruct H as [[d D] _]; [cbn; auto|discriminate D].
    + intros [_ H]. destruct H as [[d D] _]; [cbn; auto|discriminate D].
  - rewrite E2. destruct (paxis g) as [[[ax ay] az]|], (span g) as [sp|]; split; try split; try discriminate; try congruence.
    + intros _. split; [|eauto]. intros H. cbn in H. repeat (destruct H as [H|H]; [discriminate H|]). exact H.
    + injection H as <-. reflexivity.
    + assert (Q : a' = mkFA (ash a) (fun u v => let '(x, y, z) := aget a u v in (x - ax * sp, y - ay * sp, z - az * sp)%R)) by congruence.
      subst a'. cbn [aget]. intros u v x. destruct (aget a u v) as [[x1 x2] x3]. split.
      * intros [[X _]|[[_ (b1 & b2 & b3 & b4 & B1 & B2 & ->)]|[_ [X _]]]]; [discriminate X| |congruence]. congruence.
      * intros ->. right. left. split; [reflexivity|]. exists ax, ay, az, sp. auto.
    + intros [_ H]. destruct H as [_ [d D]]; [cbn; auto|discriminate D].
    + intros [_ H]. destruct H as [[d D] _]; [cbn; auto|discriminate D].
    + intros [_ H]. destruct H as [[d D] _]; [cbn; auto|discriminate D].
  - split; [split; [congruence|intros [H _]; exfalso; apply H; rewrite E3; cbn; auto]|congruence].
  - split; [split; [congruence|intros [H _]; exfalso; apply H; rewrite E4; cbn; auto]|congruence].
  - split; [split|].
    + intros _. split; [intros [H|[H|[]]]; congruence|]. intros [H|[H|[]]]; congruence.
    + congruence.
    + intros a' H. assert (a' = a) by congruence. subst a'. split; [reflexivity|]. intros u v x. destruct (aget a u v) as [[x1 x2] x3].
      split; [intros [[X _]|[[X _]|[_ [_ X]]]]; congruence|auto].
Qed.

Section Grid.
Variable mb : list gblock.
Hypothesis WF : wfGrid mb.
Hypothesis CL : closed mb.
Hypothesis HC : hasCells mb.

Lemma faceNo_outward k : 1 <= k <= 6 -> exists s, k = faceNo s.
Proof.
  intros H. assert (D : k = 1 \/ k = 2 \/ k = 3 \/ k = 4 \/ k = 5 \/ k = 6) by lia.
  destruct D as [->|[->|[->|[->|[->| ->]]]]];
  [exists (I, false)|exists (I, true)|exists (J, false)|exists (J, true)|exists (K, false)|exists (K, true)]; reflexivity.
Qed.

Lemma blk_of b : In b mb -> blk mb (gn b) b.
Proof.
  intros I. apply In_nth_error in I as [n E].
  assert (B : blk mb (Z.of_nat n) b) by (split; [lia|now rewrite Nat2Z.id]). destruct (WF _ _ B) as [-> _]. exact B.
Qed.

Lemma face_of b g : blk mb (gn b) b -> In g (gfaces b) -> exists s, nface (topo g) = faceNo s /\ fac mb (gn b) (faceNo s) g.
Proof.
  intros B I. destruct (WF _ _ B) as [_ N]. apply In_nth_error in I as [i E].
  assert (L : (i < length (gfaces b))%nat) by (apply nth_error_Some; congruence).
  assert (L6 : length (gfaces b) = 6%nat) by (apply (f_equal (@length Z)) in N; now rewrite map_length in N).
  assert (Fn : nface (topo g) = Z.of_nat i + 1).
  { apply (map_nth_error (fun g => nface (topo g))) in E. rewrite N in E.
    destruct i as [|[|[|[|[|[|]]]]]]; cbn in E; try (injection E; lia). lia. }
  destruct (faceNo_outward (nface (topo g)) ltac:(lia)) as [s Hs]. exists s. split; [exact Hs|].
  exists b. split; [exact B|]. rewrite <- Hs. split; [lia|]. rewrite Fn, <- E. f_equal. lia.
Qed.

Definition faceOK (A : Z) (s : saxis) (g : gface) : Prop :=
  (neighbor (topo g) = None -> boundaryFace g /\ bcType (topo g) <> "stagnationSubsonicInlet"%string) /\
  (neighbor (topo g) <> None -> connectedFace mb A s g /\ ~ rotational (bcType (topo g)) /\ periodicData g).
Definition faceMeets (A : Z) (s : saxis) (g : gface) : Prop :=
  forall B o a b p q x, neighbor (topo g) = Some B -> legal o -> orientation (topo g) = Some (show o) ->
     blk mb A a -> blk mb B b -> partner a b s o p q -> carried g (node a p) x -> near x (node b q).

Lemma show_eq o o' : show o = show o' -> forall a, o a = o' a.
Proof.
  intros S. unfold show in S. injection S as S1 S2 S3.
  assert (T : forall u v, digit_char (saxis_digit u) = digit_char (saxis_digit v) -> u = v).
  { intros [[] []] [[] []] Q; try reflexivity; discriminate Q. }
  intros []; auto.
Qed.

Lemma act_ext o o' s : (forall a, o a = o' a) -> act o s = act o' s.
Proof. intros H. unfold act. now rewrite H. Qed.

Lemma sface_no s : saxis_face s = faceNo s.
Proof. destruct s as [[] []]; reflexivity. Qed.
Lemma saxis_no s : face_saxis (faceNo s) = s.
Proof. destruct s as [[] []]; reflexivity. Qed.

Lemma verifyFace_spec b s g : blk mb (gn b) b -> nface (topo g) = faceNo s -> fac mb (gn b) (faceNo s) g ->
  (verifyFace mb b g <> None <-> faceOK (gn b) s g) /\
  (verifyFace mb b g = Some false <-> faceOK (gn b) s g /\ faceMeets (gn b) s g).
Proof.
  intros HB Nf Fg. unfold verifyFace, faceOK, faceMeets. destruct (neighbor (topo g)) as [B|] eqn:En.
  2:{ destruct (unconnectedOK (topo g)) eqn:U.
    - apply unconnected_spec in U as [(U1 & U2 & U3) U4].
      assert (X : boundaryFace g) by (unfold boundaryFace; auto).
      split; split; [intros _; split; [auto|congruence]|congruence|intros _; split; [split; [auto|congruence]|congruence]|reflexivity].
    - assert (Q : ~ (boundaryFace g /\ bcType (topo g) <> "stagnationSubsonicInlet"%string)).
      { intros [(_ & U1 & U2 & U3) U4]. enough (unconnectedOK (topo g) = true) by congruence. apply unconnected_spec. auto. }
      split; split; try congruence; [intros [X _]|intros [[X _] _]]; exfalso; auto. }
  destruct (CL _ _ _ _ Fg En) as [[b2 HB2] (o & L & Eo)].
  destruct (reorient_at b b2 s o L) as (fa & fb & fa' & Ea & Eb & Er & Sa & Sb & Gb & Ga). cbv zeta in *.
  set (s' := S_Topology.flip (act o s)) in *.
  rewrite Nf, Ea, (getBlk_blk mb B b2 WF HB2), Eo.
  rewrite (neighborNface_spec o (faceNo s) L) by (destruct s as [[] []]; cbn; lia).
  rewrite saxis_no. fold s'. rewrite sface_no, (proj1 (neighborOrientation_inv o L)).
  destruct (faceOf_ex b2 (faceNo s')) as [h Eh].
  { destruct s' as [[] []]; cbn; lia. }
  { destruct (WF _ _ HB2) as [_ N]. apply (f_equal (@length Z)) in N. now rewrite map_length in N. }
  rewrite Eh.
  assert (Fh : fac mb B (faceNo s') h) by (apply fac_faceOf; eauto).
  assert (CF : connectedFace mb (gn b) s g <-> sameExtent b b2 s o /\ neighbor (topo h) = Some (gn b)).
  { split.
    - intros H. destruct (H b B b2 o HB En HB2 L Eo) as [X (h' & Fh' & Nh')]. split; [exact X|].
      apply fac_faceOf in Fh' as (b' & B' & E'). rewrite (blk_fun _ _ _ _ B' HB2) in E'. fold s' in E'. congruence.
    - intros [X Y] a B0 b0 o0 Ha E0 H0 L0 Eo0. assert (B0 = B) by congruence. subst B0.
      rewrite (blk_fun _ _ _ _ Ha HB), (blk_fun _ _ _ _ H0 HB2) in *.
      assert (OE : forall c, o c = o0 c) by (apply show_eq; congruence). split.
      + intros c Hc. rewrite <- OE. now apply X.
      + exists h. rewrite <- (act_ext o o0 s OE). auto. }
  destruct (neighbor (topo h)) as [back|] eqn:Enh.
  2:{ split; split; try congruence; [intros [_ H]|intros [[_ H] _]]; destruct (H ltac:(congruence)) as [H' _]; apply CF in H' as [_ X]; discriminate X. }
  destruct (Z.eqb_spec back (gn b)) as [->|Nb]; cbn [negb].
  2:{ split; split; try congruence; [intros [_ H]|intros [[_ H] _]]; destruct (H ltac:(congruence)) as [H' _]; apply CF in H' as [_ X]; congruence. }
  rewrite Eb, Er.
  destruct (move_spec g fa') as [M1 M2].
  destruct (periodicMove g fa') as [fa''|] eqn:Em.
  2:{ assert (Q : ~ (~ rotational (bcType (topo g)) /\ periodicData g)) by (intros Q; apply M1 in Q; congruence).
      split; split; try congruence; [intros [_ H]|intros [[_ H] _]]; exfalso; apply Q; apply H; congruence. }
  assert (PD : ~ rotational (bcType (topo g)) /\ periodicData g) by (apply M1; congruence).
  destruct (M2 fa'' eq_refl) as [Sm Gm].
  assert (PP : forall c, 2 <= points b c) by (intros c; apply (HC _ _ _ HB)).
  assert (PQ : forall c, 2 <= points b2 c) by (intros c; apply (HC _ _ _ HB2)).
  destruct (compare_spec fa'' fb) as [C1 C2].
  { rewrite Sm, Sa. cbn [fst]. specialize (PP (fst (inv o (tan0 (fst s'))))). lia. }
  { rewrite Sm, Sa. cbn [snd]. specialize (PP (fst (inv o (tan1 (fst s'))))). lia. }
  assert (SE : ash fa'' = ash fb <-> sameExtent b b2 s o).
  { rewrite Sm, Sa, Sb, <- (shapes_agree b b2 s o L). fold s'. split; [intros Q; injection Q; auto|intros [-> ->]; reflexivity]. }
  assert (DEC : ash fa'' = ash fb \/ ash fa'' <> ash fb).
  { destruct (ash fa'') as [x y], (ash fb) as [x' y']. destruct (Z.eq_dec x x'), (Z.eq_dec y y'); [left; congruence|right; congruence|right; congruence|right; congruence]. }
  destruct DEC as [E|NE].
  - destruct (C2 E) as (w & Ew & Hw). rewrite Ew.
    assert (OK : connectedFace mb (gn b) s g) by (apply CF; split; [now apply SE|reflexivity]).
    assert (FM : w = false <-> (forall B0 o0 a b0 p q x, Some B = Some B0 -> legal o0 -> Some (show o) = Some (show o0) ->
       blk mb (gn b) a -> blk mb B0 b0 -> partner a b0 s o0 p q -> carried g (node a p) x -> near x (node b0 q))).
    { rewrite Hw, Sb. cbn [fst snd]. split.
      - intros H B0 o0 a b0 p q x E0 L0 Eo0 Ha Hb0 P Cx. assert (B0 = B) by congruence. subst B0.
        rewrite (blk_fun _ _ _ _ Ha HB), (blk_fun _ _ _ _ Hb0 HB2) in *.
        assert (OE : forall c, o0 c = o c) by (apply show_eq; congruence).
        assert (P' : partner b b2 s o p q).
        { destruct P as (P1 & P2 & P3). rewrite (act_ext o0 o s OE) in P2. split; [exact P1|]. split; [exact P2|].
          intros c Hc. rewrite <- OE. now apply P3. }
        destruct (partner_is _ _ _ _ _ _ L P') as (Q1 & Q2 & Q3 & Q4). cbv zeta in *. fold s' in Q1, Q2, Q3, Q4.
        specialize (H _ _ Q3 Q4). rewrite Gb in H.
        rewrite (node_ext b2 _ _ Q1). rewrite (node_ext b _ _ Q2), <- Ga in Cx. apply Gm in Cx. rewrite Cx. exact H.
      - intros H u v Hu Hv. rewrite Gb.
        assert (P : partner b b2 s o (pOf b s o (qOf b2 s' u v)) (qOf b2 s' u v)) by (apply partner_of; auto; now apply SE).
        apply (H B o b b2 _ _ (aget fa'' u v) eq_refl L eq_refl HB HB2 P). rewrite <- Ga. now apply Gm. }
    split; split.
    + intros _. split; [congruence|]. auto.
    + congruence.
    + intros Q. assert (W0 : w = false) by congruence. split; [split; [congruence|auto]|]. exact (proj1 FM W0).
    + intros [_ H]. f_equal. exact (proj2 FM H).
  - rewrite (C1 NE). split; split; try congruence; [intros [_ H]|intros [[_ H] _]]; exfalso; apply NE, SE; destruct (H ltac:(congruence)) as [H' _]; exact (proj1 (proj1 CF H')).
Qed.

Lemma left_spec A b : blk mb A b -> exists w, leftHanded b = Some w /\ (w = false <-> notLeftHanded b).
Proof.
  intros B. pose proof (HC _ _ I B) as P1. pose proof (HC _ _ J B) as P2. pose proof (HC _ _ K B) as P3.
  unfold points in *. unfold leftHanded. destruct (gshape b) as [[x y] z].
  replace (2 <=? x) with true by (symmetry; apply Z.leb_le; lia). replace (2 <=? y) with true by (symmetry; apply Z.leb_le; lia).
  replace (2 <=? z) with true by (symmetry; apply Z.leb_le; lia). cbn [andb fst snd]. eexists. split; [reflexivity|].
  unfold notLeftHanded. cbv zeta.
  match goal with |- context [Rlt_dec ?t 0] => set (tt := t) end.
  match goal with |- _ <-> (0 <= ?u)%R => replace u with tt by (unfold tt; ring) end.
  destruct Rlt_dec as [H|H]; split; try congruence; lra.
Qed.

Lemma verify_returns : verify mb <> None <-> forall A s g, fac mb A (faceNo s) g -> faceOK A s g.
Proof.
  unfold verify. destruct (warns_spec (verifyBlock mb) mb) as [W1 _].
  transitivity (warns (verifyBlock mb) mb <> None); [destruct (warns (verifyBlock mb) mb); split; congruence|].
  rewrite W1. split.
  - intros H A s g Fg. pose proof Fg as (b & HB & K & Ek). destruct (WF _ _ HB) as [Gn _]. subst A.
    assert (Ib : In b mb) by (destruct HB as [_ HB]; now apply nth_error_In in HB).
    specialize (H b Ib). unfold verifyBlock in H. destruct (warns_spec (verifyFace mb b) (gfaces b)) as [V1 _].
    assert (V : warns (verifyFace mb b) (gfaces b) <> None) by (destruct (warns (verifyFace mb b) (gfaces b)); congruence).
    rewrite V1 in V. apply nth_error_In in Ek as Ig. specialize (V g Ig).
    destruct (face_of b g HB Ig) as (s0 & N0 & F0).
    assert (s0 = s).
    { assert (Q : nface (topo g) = faceNo s).
      { apply fac_faceOf in Fg as (b' & B' & E'). rewrite (blk_fun _ _ _ _ B' HB) in E'. apply (face_num b); [exact (proj2 (WF _ _ HB))|exact E']. }
      rewrite N0 in Q. destruct s0 as [[] []], s as [[] []]; cbn in Q; congruence. }
    subst s0. exact (proj1 (proj1 (verifyFace_spec b s g HB N0 F0)) V).
  - intros H b Ib. pose proof (blk_of b Ib) as HB. unfold verifyBlock.
    destruct (warns_spec (verifyFace mb b) (gfaces b)) as [V1 _].
    assert (V : warns (verifyFace mb b) (gfaces b) <> None).
    { apply V1. intros g Ig. destruct (face_of b g HB Ig) as (s & N & F). apply (verifyFace_spec b s g HB N F). now apply H. }
    destruct (left_spec _ b HB) as (w & -> & _). destruct (warns (verifyFace mb b) (gfaces b)); congruence.
Qed.

Lemma verify_true : verify mb = Some true <-> verify mb <> None /\ pointsAgree mb.
Proof.
  rewrite verify_returns. unfold verify. destruct (warns_spec (verifyBlock mb) mb) as [_ W2].
  transitivity (warns (verifyBlock mb) mb = Some false); [destruct (warns (verifyBlock mb) mb) as [[]|]; cbn; split; congruence|].
  rewrite W2. split.
  - intros H.
    assert (HF : forall A s g, fac mb A (faceNo s) g -> faceOK A s g /\ faceMeets A s g).
    { intros A s g Fg. pose proof Fg as (b & HB & K & Ek). destruct (WF _ _ HB) as [Gn _]. subst A.
      assert (Ib : In b mb) by (destruct HB as [_ HB]; now apply nth_error_In in HB).
      specialize (H b Ib). unfold verifyBlock in H. destruct (warns_spec (verifyFace mb b) (gfaces b)) as [_ V2].
      assert (V : warns (verifyFace mb b) (gfaces b) = Some false).
      { destruct (warns (verifyFace mb b) (gfaces b)) as [[]|]; destruct (leftHanded b) as [[]|]; cbn in H; congruence. }
      rewrite V2 in V. apply nth_error_In in Ek as Ig. specialize (V g Ig).
      destruct (face_of b g HB Ig) as (s0 & N0 & F0).
      assert (s0 = s).
      { assert (Q : nface (topo g) = faceNo s).
        { apply fac_faceOf in Fg as (b' & B' & E'). rewrite (blk_fun _ _ _ _ B' HB) in E'. apply (face_num b); [exact (proj2 (WF _ _ HB))|exact E']. }
        rewrite N0 in Q. destruct s0 as [[] []], s as [[] []]; cbn in Q; congruence. }
      subst s0. exact (proj1 (proj2 (verifyFace_spec b s g HB N0 F0)) V). }
    split; [intros A s g Fg; now apply HF|]. split.
    + intros A s g B o a b p q x Fg En L Eo Ha Hb P Cx. destruct (HF _ _ _ Fg) as [_ M]. exact (M B o a b p q x En L Eo Ha Hb P Cx).
    + intros A a Ha. destruct (WF _ _ Ha) as [Gn _]. subst A.
      assert (Ib : In a mb) by (destruct Ha as [_ Ha]; now apply nth_error_In in Ha).
      specialize (H a Ib). unfold verifyBlock in H. destruct (left_spec _ a Ha) as (w & E & Hw). rewrite E in H.
      apply Hw. destruct (warns (verifyFace mb a) (gfaces a)) as [[]|]; destruct w; cbn in H; congruence.
  - intros [HO [HP HL]] b Ib. pose proof (blk_of b Ib) as HB. unfold verifyBlock.
    destruct (warns_spec (verifyFace mb b) (gfaces b)) as [_ V2].
    assert (V : warns (verifyFace mb b) (gfaces b) = Some false).
    { apply V2. intros g Ig. destruct (face_of b g HB Ig) as (s & N & F). apply (verifyFace_spec b s g HB N F). split; [now apply HO|].
      intros B o a b0 p q x. apply (HP _ _ _ _ _ _ _ _ _ _ F). }
    destruct (left_spec _ b HB) as (w & -> & Hw). rewrite V. rewrite (proj2 Hw) by (now apply (HL _ _ HB)). reflexivity.
Qed.
End Grid.

(** C112.  verify() returns, rather than raising, exactly when every face without a neighbour is a
    proper boundary face (of a type other than stagnationSubsonicInlet) and every connected face
    ends on a face that names its block and has as many points, is not rotationally periodic, and
    carries its periodic data. *)
Theorem C112_verify_returns : forall mb, wfGrid mb -> closed mb -> hasCells mb ->
  (verify mb <> None <->
   forall A s g, fac mb A (faceNo s) g ->
     (neighbor (topo g) = None -> boundaryFace g /\ bcType (topo g) <> "stagnationSubsonicInlet"%string) /\
     (neighbor (topo g) <> None -> connectedFace mb A s g /\ ~ rotational (bcType (topo g)) /\ periodicData g)).
Proof. exact verify_returns. Qed.

(** C112.  When it returns, it returns True exactly when at every connection, in whatever relative
    orientation, each point is within 1e-10 of its partner (after translation, for a
    translationally periodic face), and no block is left handed. *)
Theorem C112_verify_true : forall mb, wfGrid mb -> closed mb -> hasCells mb ->
  (verify mb = Some true <-> verify mb <> None /\ pointsAgree mb) /\
  (verify mb = Some false <-> verify mb <> None /\ ~ pointsAgree mb).
Proof.
  intros mb WF CL HC. pose proof (verify_true mb WF CL HC) as H. split; [exact H|].
  destruct (verify mb) as [[]|]; split; try congruence.
  - intros [_ N]. exfalso. apply N. now apply H.
  - intros _. split; [congruence|]. intros P. assert (Some false = Some true) by (apply H; split; [congruence|exact P]). congruence.
  - intros [X _]. congruence.
Qed.

(** C112, what fails: on every grid with a rotationally periodic connection verify() raises,
    although its header says such grids are supported once the periodic data are read. *)
Theorem C112_rotational_refuted : forall mb A s g, wfGrid mb -> closed mb -> hasCells mb ->
  fac mb A (faceNo s) g -> neighbor (topo g) <> None -> rotational (bcType (topo g)) -> verify mb = None.
Proof.
  intros mb A s g WF CL HC Fg Nn Rt. destruct (verify mb) eqn:E; [|reflexivity]. exfalso.
  assert (V : verify mb <> None) by congruence. rewrite (C112_verify_returns mb WF CL HC) in V.
  destruct (V _ _ _ Fg) as [_ X]. destruct (X Nn) as (_ & Y & _). auto.
Qed.

(** C79.  Proved part: a grid is not rejected for its boundary types as long as none is
    stagnationSubsonicInlet. *)
Theorem C79_boundary_types_partial : forall mb, wfGrid mb -> closed mb -> hasCells mb -> pointsAgree mb ->
  (forall A s g, fac mb A (faceNo s) g -> neighbor (topo g) <> None ->
     connectedFace mb A s g /\ ~ rotational (bcType (topo g)) /\ periodicData g) ->
  (forall A s g, fac mb A (faceNo s) g -> neighbor (topo g) = None ->
     boundaryFace g /\ bcType (topo g) <> "stagnationSubsonicInlet"%string) ->
  verify mb = Some true.
Proof.
  intros mb WF CL HC PA HN HB. apply (C112_verify_true mb WF CL HC). split; [|exact PA].
  apply (C112_verify_returns mb WF CL HC). intros A s g Fg. split; intros X; [now apply (HB A s)|now apply HN].
Qed.

(** * Examples *)
Definition cubeFace (t : string) (n : Z) : gface :=
  mkGF (mkFace n (Some "fam"%string) (if n =? 1 then t else "adiabaticSlipWall") None None) None None.
Definition cube (t : string) : list gblock :=
  [mkGB 0 (2, 2, 2) (fun i _ _ => IZR i) (fun _ j _ => IZR j) (fun _ _ k => IZR k) (map (cubeFace t) [1;2;3;4;5;6])].

Lemma cube_blk t n b : blk (cube t) n b -> n = 0 /\ Some b = nth_error (cube t) 0.
Proof. intros [H E]. destruct (Z.to_nat n) as [|[|]] eqn:N; cbn in E; try discriminate E. split; [lia|rewrite <- E; reflexivity]. Qed.
Lemma cube_fac t n s g : fac (cube t) n (faceNo s) g -> n = 0 /\ g = cubeFace t (faceNo s).
Proof.
  intros (b & B & _ & E). apply cube_blk in B as [-> B]. cbn in B. injection B as ->. split; [reflexivity|].
  destruct s as [[] []]; cbn in E; injection E as <-; reflexivity.
Qed.
Lemma cube_ok t : wfGrid (cube t) /\ closed (cube t) /\ hasCells (cube t) /\ pointsAgree (cube t).
Proof.
  split; [|split; [|split; [|split]]].
  - intros n b B. apply cube_blk in B as [-> B]. cbn in B. injection B as ->. split; reflexivity.
  - intros A k g B (b & HB & K & E) N. destruct (faceNo_outward k K) as [s ->].
    assert (F : fac (cube t) A (faceNo s) g) by (exists b; auto). apply cube_fac in F as [_ ->]. discriminate N.
  - intros n b a B. apply cube_blk in B as [-> B]. cbn in B. injection B as ->. destruct a; cbn; lia.
  - intros A s g B o a b p q x F N. apply cube_fac in F as [_ ->]. discriminate N.
  - intros A a B. apply cube_blk in B as [-> B]. cbn in B. injection B as ->. unfold notLeftHanded. cbn. lra.
Qed.

(** C79 fails: stagnationSubsonicInlet is a boundary type the solver supports, but a grid that
    would be verified with any other inlet is rejected with it. *)
Theorem C79_stagnation_refuted : exists mb, wfGrid mb /\ closed mb /\ hasCells mb /\ pointsAgree mb /\
  (forall A s g, fac mb A (faceNo s) g -> boundaryFace g) /\ verify mb = None.
Proof.
  exists (cube "stagnationSubsonicInlet"). destruct (cube_ok "stagnationSubsonicInlet") as (W & C & H & P).
  repeat (split; [assumption|]). split.
  - intros A s g F. apply cube_fac in F as [_ ->]. split; [reflexivity|]. split; [|split; [reflexivity|right; discriminate]].
    split; [destruct s as [[] []]; cbn; tauto|]. intros X. destruct s as [[] []]; cbn in X; repeat (destruct X as [X|X]; [discriminate X|]); exact X.
  - destruct (verify (cube "stagnationSubsonicInlet")) eqn:E; [|reflexivity]. exfalso.
    assert (V : verify (cube "stagnationSubsonicInlet") <> None) by congruence.
    rewrite (C112_verify_returns _ W C H) in V.
    assert (F : fac (cube "stagnationSubsonicInlet") 0 (faceNo (I, false)) (cubeFace "stagnationSubsonicInlet" 1))
      by (eexists; split; [split; [lia|reflexivity]|split; [cbn; lia|reflexivity]]).
    destruct (V _ _ _ F) as [X _]. destruct (X eq_refl) as [_ Y]. apply Y. reflexivity.
Qed.

Example C79_nonvacuous : verify (cube "constantVelocitySubsonicInlet") = Some true.
Proof.
  destruct (cube_ok "constantVelocitySubsonicInlet") as (W & C & H & P).
  apply C79_boundary_types_partial; auto; intros A s g F N; apply cube_fac in F as [_ ->]; [destruct N; reflexivity|].
  split.
  - split; [reflexivity|]. split; [|split; [reflexivity|right; discriminate]].
    split; [destruct s as [[] []]; cbn; tauto|]. intros X. destruct s as [[] []]; cbn in X; repeat (destruct X as [X|X]; [discriminate X|]); exact X.
  - destruct s as [[] []]; cbn; discriminate.
Qed.

(** Two blocks joined with a cyclic change of axes: our i along their j, j along k, k along i. *)
Definition tFace (n : Z) (nb : option (Z * string)) : gface :=
  match nb with
  | Some (B, o) => mkGF (mkFace n None "b0" (Some B) (Some o)) None None
  | None => mkGF (mkFace n None "adiabaticSlipWall" None None) None None
  end.
Definition twisted : list gblock :=
  [ mkGB 0 (5, 3, 2) (fun i _ _ => IZR i) (fun _ j _ => IZR j) (fun _ _ k => IZR k)
      (map (fun n => tFace n (if n =? 2 then Some (1, "231"%string) else None)) [1;2;3;4;5;6]);
    mkGB 1 (2, 4, 3) (fun i j k => IZR (4 + j)) (fun i j k => IZR k) (fun i j k => IZR i)
      (map (fun n => tFace n (if n =? 3 then Some (0, "312"%string) else None)) [1;2;3;4;5;6]) ].
Definition o231 : orient := fun a => match a with I => (J, true) | J => (K, true) | K => (I, true) end.
Definition o312 : orient := fun a => match a with I => (K, true) | J => (I, true) | K => (J, true) end.

Lemma twisted_blk n b : blk twisted n b -> (n = 0 /\ Some b = nth_error twisted 0) \/ (n = 1 /\ Some b = nth_error twisted 1).
Proof.
  intros H. pose proof (blk_lt _ _ _ H) as L. cbn in L. destruct H as [_ E].
  assert (n = 0 \/ n = 1) as [->| ->] by lia; rewrite <- E; auto.
Qed.
Lemma twisted_face n s g : fac twisted n (faceNo s) g ->
  (n = 0 /\ s = (I, true) /\ g = tFace 2 (Some (1, "231"%string))) \/ (n = 1 /\ s = (J, false) /\ g = tFace 3 (Some (0, "312"%string))) \/
  (g = tFace (faceNo s) None).
Proof.
  intros (b & B & _ & E). apply twisted_blk in B as [[-> B]|[-> B]]; cbn in B; injection B as ->;
  destruct s as [[] []]; cbn in E; injection E as <-; auto 6.
Qed.

Example C112_nonvacuous : wfGrid twisted /\ closed twisted /\ hasCells twisted /\ verify twisted = Some true.
Proof.
  assert (L1 : legal o231) by (intros [] []; cbn; congruence). assert (L2 : legal o312) by (intros [] []; cbn; congruence).
  assert (W : wfGrid twisted) by (intros n b B; apply twisted_blk in B as [[-> B]|[-> B]]; cbn in B; injection B as ->; split; reflexivity).
  assert (C : closed twisted).
  { intros A k g B F E. pose proof F as (b & _ & Hk & _). destruct (faceNo_outward k Hk) as [s ->].
    apply twisted_face in F as [(-> & -> & ->)|[(-> & -> & ->)| ->]]; cbn in E; try discriminate E;
    assert (Eb : B = 1 \/ B = 0) by (injection E; lia); assert (Q : Some B = Some B) by reflexivity.
    - assert (B = 1) by congruence. subst B. split; [eexists; split; [lia|reflexivity]|]. exists o231. auto.
    - assert (B = 0) by congruence. subst B. split; [eexists; split; [lia|reflexivity]|]. exists o312. auto. }
  assert (H : hasCells twisted).
  { intros n b a B. apply twisted_blk in B as [[-> B]|[-> B]]; cbn in B; injection B as ->; destruct a; cbn; lia. }
  split; [exact W|]. split; [exact C|]. split; [exact H|].
  assert (B0 : forall b, blk twisted 0 b -> Some b = nth_error twisted 0) by (intros b B; apply twisted_blk in B as [[_ B]|[? _]]; [exact B|lia]).
  assert (B1 : forall b, blk twisted 1 b -> Some b = nth_error twisted 1) by (intros b B; apply twisted_blk in B as [[? _]|[_ B]]; [lia|exact B]).
  assert (N0 : forall x, near x x).
  { intros [[x y] z]. unfold near. rewrite !Rminus_diag_eq, Rabs_R0 by reflexivity. repeat split; lra. }
  apply (C112_verify_true _ W C H). split; [apply (C112_verify_returns _ W C H)|split].
  - intros A s g F. split; intros X.
    + apply twisted_face in F as [(-> & -> & ->)|[(-> & -> & ->)| ->]]; try discriminate X. split; [|discriminate].
      split; [reflexivity|]. split; [split; [cbn; tauto|]|split; [reflexivity|left; cbn; auto]].
      intros Y. cbn in Y. repeat (destruct Y as [Y|Y]; [discriminate Y|]). exact Y.
    + assert (P : ~ rotational (bcType (topo g)) /\ periodicData g).
      { apply twisted_face in F as [(-> & -> & ->)|[(-> & -> & ->)| ->]]; try (exfalso; apply X; reflexivity);
        (split; [intros Y; cbn in Y; repeat (destruct Y as [Y|Y]; [discriminate Y|]); exact Y|]);
        intros Y; cbn in Y; repeat (destruct Y as [Y|Y]; [discriminate Y|]); destruct Y. }
      split; [|exact P]. intros a B b o Ha E Hb L Eo.
      apply twisted_face in F as [(-> & -> & ->)|[(-> & -> & ->)| ->]]; cbn in E; try discriminate E.
      * assert (B = 1) by congruence. subst B. apply B0 in Ha. apply B1 in Hb. cbn in Ha, Hb. injection Ha as ->. injection Hb as ->.
        assert (Oe : forall c, o231 c = o c) by (apply show_eq; change (Some "231"%string = Some (show o)) in Eo; transitivity "231"%string; [reflexivity|congruence]).
        split.
        -- intros [] Hc; rewrite <- Oe; cbn; try reflexivity. destruct Hc; reflexivity.
        -- rewrite <- (act_ext _ _ _ Oe). cbn. exists (tFace 3 (Some (0, "312"%string))). split; [|reflexivity].
           eexists. split; [split; [lia|reflexivity]|]. split; [lia|reflexivity].
      * assert (B = 0) by congruence. subst B. apply B1 in Ha. apply B0 in Hb. cbn in Ha, Hb. injection Ha as ->. injection Hb as ->.
        assert (Oe : forall c, o312 c = o c) by (apply show_eq; change (Some "312"%string = Some (show o)) in Eo; transitivity "312"%string; [reflexivity|congruence]).
        split.
        -- intros [] Hc; rewrite <- Oe; cbn; try reflexivity. destruct Hc; reflexivity.
        -- rewrite <- (act_ext _ _ _ Oe). cbn. exists (tFace 2 (Some (1, "231"%string))). split; [|reflexivity].
           eexists. split; [split; [lia|reflexivity]|]. split; [lia|reflexivity].
  - intros A s g B o a b p q x F E L Eo Ha Hb P Cx.
    apply twisted_face in F as [(-> & -> & ->)|[(-> & -> & ->)| ->]]; cbn in E; try discriminate E.
    + assert (B = 1) by congruence. subst B. apply B0 in Ha. apply B1 in Hb. cbn in Ha, Hb. injection Ha as ->. injection Hb as ->.
      assert (Oe : forall c, o231 c = o c) by (apply show_eq; change (Some "231"%string = Some (show o)) in Eo; transitivity "231"%string; [reflexivity|congruence]).
      destruct P as ((_ & P1) & (_ & P2) & P3). rewrite <- (act_ext _ _ _ Oe) in P2.
      pose proof (P3 J ltac:(discriminate)) as PJ. pose proof (P3 K ltac:(discriminate)) as PK. rewrite <- Oe in PJ, PK. cbn in P1, P2, PJ, PK.
      unfold node in *. cbn in Cx |- *. destruct Cx as [[T _]|[[T _]|[_ [_ ->]]]]; try discriminate T. rewrite P1, P2, PJ, PK. apply N0.
    + assert (B = 0) by congruence. subst B. apply B1 in Ha. apply B0 in Hb. cbn in Ha, Hb. injection Ha as ->. injection Hb as ->.
      assert (Oe : forall c, o312 c = o c) by (apply show_eq; change (Some "312"%string = Some (show o)) in Eo; transitivity "312"%string; [reflexivity|congruence]).
      destruct P as ((_ & P1) & (_ & P2) & P3). rewrite <- (act_ext _ _ _ Oe) in P2.
      pose proof (P3 I ltac:(discriminate)) as PI0. pose proof (P3 K ltac:(discriminate)) as PK. rewrite <- Oe in PI0, PK. cbn in P1, P2, PI0, PK.
      unfold node in *. cbn in Cx |- *. destruct Cx as [[T _]|[[T _]|[_ [_ ->]]]]; try discriminate T. rewrite P1, P2, PI0, PK. apply N0.
  - intros A a B. apply twisted_blk in B as [[-> B]|[-> B]]; cbn in B; injection B as ->; unfold notLeftHanded; cbn; lra.
Qed.

Print Assumptions C112_verify_returns.
Print Assumptions C112_verify_true.
Print Assumptions C112_rotational_refuted.
Print Assumptions C79_boundary_types_partial.
Print Assumptions C79_stagnation_refuted.
