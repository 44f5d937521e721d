(** Lemmas for C137, fifth part: the finished grid is cut as specified and is again a good grid. *)
From Coq Require Import ZArith String Ascii List Bool Lia Reals Lra.
From Verif Require Import M_Topology S_Topology L_Topology P_Topology M_Cut S_Cut L_Cut L_Cut2 P_Cut P_CutPath M_CutGrid S_CutGrid L_CutGrid1 L_CutGrid2 L_CutGrid3 L_CutGrid4.
Import ListNotations.
Open Scope Z_scope.

Lemma withNeighbor_same v g : sameCondition (withNeighbor v g) g.
Proof. repeat split. Qed.

Section Result.
Variable mb0 : list gblock.
Let N := Z.of_nat (length mb0).
Hypothesis G0 : goodGrid mb0.
Let W0 := good_wf _ G0.
Let C0 := good_closed _ G0.
Let P0 := good_paired _ G0.
Let R0 := good_periodic _ G0.
Variables n0 idx : Z.
Hypothesis Hidx : 0 < idx < n0 - 1.
Variable path : list cutState.
Hypothesis ND : NoDup (map blockOf path).
Hypothesis InP : forall A a r, In (A, a, r) path -> exists b, blk mb0 A b /\ points b a = n0.
Hypothesis Lat : forall A a r s B s' o, In (A, a, r) path -> fst s <> a -> conn mb0 A s B s' o ->
  In (B, fst (o a), if snd (o a) then r else negb r) path.
Variable mbc : list gblock.
Hypothesis V : Inv mb0 n0 idx path mbc.
Variable ff : table.
Hypothesis T : tableFor mb0 0 path ff.
Let pieceNo := pieceNo mb0 path.
Let valid := valid mb0 path.
Let cnts := cnts n0 idx path.
Let offs := offs n0 idx path.
Variable m : list gblock.
Hypothesis Wm : wfGrid m.
Hypothesis Lm : length m = length mbc.
Hypothesis Bm : forall X b, blk mbc X b -> exists b', blk m X b' /\ gshape b' = gshape b /\ gx b' = gx b /\ gy b' = gy b /\ gz b' = gz b.
Hypothesis Fm : forall X k g, fac mbc X k g -> exists g', fac m X k g' /\
     (~ pend ff (X, k) -> g' = g) /\ (forall Y k', Mate mb0 path (X, k) (Y, k') -> g' = withNeighbor (Some Y) g).

Lemma m_geo X h b0 : blk mb0 X b0 -> valid X h -> exists b, blk m (pieceNo X h) b /\
  (forall c, points b c = cnts b0 X h c) /\ forall p, node b p = node b0 (fun c => p c + offs X h c).
Proof.
  intros Hb Va. destruct (piece_geo mb0 n0 idx path mbc V X h b0 Hb Va) as (b & H1 & H2 & H3).
  destruct (Bm _ _ H1) as (b' & H' & E1 & E2 & E3 & E4). exists b'. split; [exact H'|]. split.
  - intros c. etransitivity; [|exact (H2 c)]. unfold points. now rewrite E1.
  - intros p. etransitivity; [|exact (H3 p)]. unfold node. now rewrite E2, E3, E4.
Qed.

(** Every block of the result is a piece. *)
Lemma m_piece X b : blk m X b -> exists X0 h, X = pieceNo X0 h /\ valid X0 h.
Proof.
  intros H. apply blk_lt in H. rewrite Lm, (i_len _ _ _ _ _ V) in H. fold N in H.
  destruct (Z_lt_le_dec X N) as [L|L].
  - exists X, false. split; [unfold pieceNo, L_CutGrid4.pieceNo; destruct (posOf X path) as [[[? ?] ?]|]; reflexivity|].
    split; [|auto]. apply blk_ex. fold N. lia.
  - destruct (nth_error path (Z.to_nat (X - N))) as [[[A a] r]|] eqn:Q; [|apply nth_error_None in Q; lia].
    exists A, true. split; [|eapply valid_path; eauto; eapply nth_error_In; eauto].
    unfold pieceNo, L_CutGrid4.pieceNo. rewrite (nth_posOf _ _ _ _ ND _ Q). fold N. lia.
Qed.

Definition exposed (X : Z) (h : bool) (s : saxis) : Prop := forall a r, In (X, a, r) path -> s <> (a, negb h).

(** Pieces joined in the result through an old joint. *)
Definition jr (X : Z) (h : bool) (s : saxis) (Y : Z) (h' : bool) (t : saxis) (o : orient) : Prop :=
  conn mb0 X s Y t o /\ valid Y h' /\ exposed X h s /\ exposed Y h' t /\
  (forall a r, In (X, a, r) path -> fst s <> a -> h' = if snd (o a) then h else negb h).

(** A joint that is not lateral meets path blocks at their ends. *)
Lemma end_to_end X s Y t o a' r' : conn mb0 X s Y t o -> In (Y, a', r') path ->
  (forall a r, In (X, a, r) path -> fst s = a) -> fst t = a'.
Proof.
  intros Cn HY HX. destruct (axis_dec (fst t) a') as [|Ne]; [assumption|exfalso].
  destruct (P0 _ _ _ _ _ Cn) as (_ & o' & Iv & Cn').
  pose proof (Lat _ _ _ _ _ _ _ HY Ne Cn') as HX'. pose proof (HX _ _ HX') as E.
  destruct Cn' as (g & _ & _ & L & _ & Es). rewrite Es, fst_flip_act in E. apply Ne. now apply L.
Qed.

Lemma in_path_dec X : (exists a r, In (X, a, r) path) \/ forall a r, ~ In (X, a, r) path.
Proof.
  destruct (posOf X path) as [[[j a] r]|] eqn:Q.
  - left. exists a, r. eapply posOf_path; eauto.
  - right. intros a r H. destruct (path_posOf path ND _ _ _ H). congruence.
Qed.
Lemma lateral_dec X (s : saxis) : (exists a r, In (X, a, r) path /\ fst s <> a) \/ forall a r, In (X, a, r) path -> fst s = a.
Proof.
  destruct (in_path_dec X) as [(a & r & H)|H].
  - destruct (axis_dec (fst s) a) as [E|E]; [right|left; eauto]. intros a' r' H'. destruct (path_fun path ND _ _ _ _ _ H H'). congruence.
  - right. intros a r H'. destruct (H _ _ H').
Qed.

Lemma jr_unique X h s Y h1 h2 t o : jr X h s Y h1 t o -> jr X h s Y h2 t o -> h1 = h2.
Proof.
  intros (Cn & Va1 & _ & E1 & L1) (_ & Va2 & _ & E2 & L2). destruct (lateral_dec X s) as [(a & r & H & Hs)|NL].
  - rewrite (L1 _ _ H Hs), (L2 _ _ H Hs). reflexivity.
  - destruct (in_path_dec Y) as [(a' & r' & HY)|HY].
    + pose proof (end_to_end _ _ _ _ _ _ _ Cn HY NL) as Et. specialize (E1 _ _ HY). specialize (E2 _ _ HY).
      destruct t as [c v]. cbn in Et. subst c. destruct h1, h2, v; cbn in *; congruence.
    + assert (Q : posOf Y path = None).
      { destruct (posOf Y path) as [[[j a] r]|] eqn:Q; [|reflexivity]. exfalso. eapply HY. eapply posOf_path; eauto. }
      destruct Va1 as [_ Z1], Va2 as [_ Z2]. rewrite (Z1 Q), (Z2 Q). reflexivity.
Qed.

Lemma jr_sym X h s Y h' t o : valid X h -> jr X h s Y h' t o -> exists o', inverse o o' /\ jr Y h' t X h s o'.
Proof.
  intros Va (Cn & Va' & E & E' & L). destruct (P0 _ _ _ _ _ Cn) as (_ & o' & Iv & Cn'). exists o'. split; [exact Iv|].
  split; [exact Cn'|]. split; [exact Va|]. split; [exact E'|]. split; [exact E|].
  intros a' r' HY Ht. destruct (lateral_dec X s) as [(a & r & H & Hs)|NL].
  - destruct (mate_back mb0 path Lat _ _ _ _ _ _ _ _ H Hs Cn Iv Cn') as (HB & Ht' & E1 & E2).
    destruct (path_fun path ND _ _ _ _ _ HY HB) as [-> ->]. rewrite E2, (L _ _ H Hs). destruct (snd (o a)); [reflexivity|now rewrite negb_involutive].
  - exfalso. apply Ht. eapply end_to_end; eauto.
Qed.

(** The faces of the result. *)
Lemma m_face X h s g0 : fac mb0 X (faceNo s) g0 -> valid X h -> exists g, fac m (pieceNo X h) (faceNo s) g /\
  ((exists a r, In (X, a, r) path /\ s = (a, negb h) /\ interiorTo (pieceNo X (negb h)) g) \/
   (exposed X h s /\ sameCondition g g0 /\ (neighbor (topo g0) = None -> neighbor (topo g) = None) /\
    forall Y t o, conn mb0 X s Y t o -> exists h', jr X h s Y h' t o /\ neighbor (topo g) = Some (pieceNo Y h'))).
Proof.
  intros F0 Va.
  assert (MT : forall a r g gm, In (X, a, r) path -> fst s <> a -> exposed X h s ->
     fac m (pieceNo X h) (faceNo s) gm -> sameCondition g g0 -> (neighbor (topo g0) = None -> neighbor (topo g) = None) ->
     (~ pend ff (pieceNo X h, faceNo s) -> gm = g) ->
     (forall Y k', Mate mb0 path (pieceNo X h, faceNo s) (Y, k') -> gm = withNeighbor (Some Y) g) ->
     sameCondition gm g0 /\ (neighbor (topo g0) = None -> neighbor (topo gm) = None) /\
     forall Y t o, conn mb0 X s Y t o -> exists h', jr X h s Y h' t o /\ neighbor (topo gm) = Some (pieceNo Y h')).
  { intros a r g gm HX Hs EX FM SC Z0 NP MP.
    destruct (neighbor (topo g0)) as [B|] eqn:NB.
    - destruct (closed_conn _ _ _ _ _ C0 F0 NB) as (t & o & Cn).
      assert (ME : gm = withNeighbor (Some (pieceNo B (if snd (o a) then h else negb h))) g).
      { eapply MP. exists X, a, r, h, s, B, t, o. split; [exact HX|]. split; [exact Hs|]. split; [exact Cn|]. split; reflexivity. }
      split; [rewrite ME; eapply same_trans; [apply withNeighbor_same|exact SC]|]. split; [congruence|].
      intros Y t' o' Cn'. destruct (conn_fun _ _ _ _ _ _ _ _ _ Cn Cn') as (<- & <- & Eo). exists (if snd (o a) then h else negb h). split; [|rewrite ME; reflexivity].
      assert (HB := Lat _ _ _ _ _ _ _ HX Hs Cn). split; [exact Cn'|]. split; [eapply valid_path; eauto|]. split; [exact EX|]. split.
      + intros a' r' HB'. destruct (path_fun path ND _ _ _ _ _ HB HB') as [<- _].
        destruct Cn as (g2 & _ & _ & L & _ & ->). intros Q. apply (f_equal fst) in Q. rewrite fst_flip_act in Q. cbn in Q. apply Hs. now apply L.
      + intros a' r' HX' _. destruct (path_fun path ND _ _ _ _ _ HX HX') as [<- _]. now rewrite Eo.
    - assert (NPE : ~ pend ff (pieceNo X h, faceNo s)).
      { intros PE. apply (pend_iff mb0 G0 n0 idx Hidx path ND InP ff T) in PE as (A & a1 & r1 & h1 & s1 & g1 & HA & E & _ & F1 & Nn). injection E as E1 E2.
        apply faceNo_inj in E2. subst s1. apply (pieceNo_inj mb0 path) in E1; [|exact Va|eapply valid_path; eauto]. destruct E1 as [<- _].
        rewrite (fac_fun _ _ _ _ _ F0 F1) in NB. congruence. }
      rewrite (NP NPE). split; [exact SC|]. split; [auto|]. intros Y t o (g1 & F1 & N1 & _). rewrite (fac_fun _ _ _ _ _ F0 F1) in NB. congruence. }
  (* faces whose expectation was known before the search *)
  assert (KEEP : forall g gm, exposed X h s -> (forall a r, In (X, a, r) path -> fst s = a) ->
     keeps mb0 path X s g0 g -> (~ pend ff (pieceNo X h, faceNo s) -> gm = g) ->
     sameCondition gm g0 /\ (neighbor (topo g0) = None -> neighbor (topo gm) = None) /\
     forall Y t o, conn mb0 X s Y t o -> exists h', jr X h s Y h' t o /\ neighbor (topo gm) = Some (pieceNo Y h')).
  { intros g gm EX AL (SC & Z0 & KP) NP.
    assert (NPE : ~ pend ff (pieceNo X h, faceNo s)).
    { intros PE. apply (pend_iff mb0 G0 n0 idx Hidx path ND InP ff T) in PE as (A & a1 & r1 & h1 & s1 & g1 & HA & E & Hs1 & F1 & Nn). injection E as E1 E2.
      apply faceNo_inj in E2. subst s1. apply (pieceNo_inj mb0 path) in E1; [|exact Va|eapply valid_path; eauto]. destruct E1 as [<- _].
      apply Hs1. eapply AL; eauto. }
    rewrite (NP NPE). split; [exact SC|]. split; [exact Z0|]. intros Y t o Cn. pose proof (KP _ _ _ Cn) as KN.
    assert (BY : exists b, blk mb0 Y b). { destruct Cn as (g1 & F1 & N1 & _). apply (C0 _ _ _ _ F1 N1). }
    unfold newNbr in KN. destruct (posOf Y path) as [[[j a'] r']|] eqn:Q.
    - assert (HY := posOf_path path _ _ _ _ Q). pose proof (end_to_end _ _ _ _ _ _ _ Cn HY AL) as Et.
      exists (snd t). split.
      + split; [exact Cn|]. split; [split; [exact BY|congruence]|]. split; [exact EX|]. split.
        * intros a1 r1 HY1. destruct (path_fun path ND _ _ _ _ _ HY HY1) as [<- _]. destruct t as [c []]; cbn; congruence.
        * intros a1 r1 HX Hs. exfalso. apply Hs. eapply AL; eauto.
      + rewrite KN. unfold pieceNo, L_CutGrid4.pieceNo. rewrite Q. destruct t as [c v]. cbn in Et. subst c. cbn [snd].
        destruct (saxis_dec (a', v) (a', true)) as [E|E]; destruct v; congruence.
    - exists false. split.
      + split; [exact Cn|]. split; [split; [exact BY|auto]|]. split; [exact EX|]. split.
        * intros a1 r1 HY1. destruct (path_posOf path ND _ _ _ HY1). congruence.
        * intros a1 r1 HX Hs. exfalso. apply Hs. eapply AL; eauto.
      + rewrite KN. unfold pieceNo, L_CutGrid4.pieceNo. rewrite Q. reflexivity. }
  (* interfaces *)
  assert (INT : forall a r g gm, In (X, a, r) path -> s = (a, negb h) -> interiorTo (pieceNo X (negb h)) g ->
     (~ pend ff (pieceNo X h, faceNo s) -> gm = g) -> interiorTo (pieceNo X (negb h)) gm).
  { intros a r g gm HX Es IT NP. rewrite NP; [exact IT|]. intros PE.
    apply (pend_iff mb0 G0 n0 idx Hidx path ND InP ff T) in PE as (A & a1 & r1 & h1 & s1 & g1 & HA & E & Hs1 & F1 & Nn). injection E as E1 E2.
    apply faceNo_inj in E2. subst s1. apply (pieceNo_inj mb0 path) in E1; [|exact Va|eapply valid_path; eauto]. destruct E1 as [<- _].
    destruct (path_fun path ND _ _ _ _ _ HX HA) as [<- _]. apply Hs1. rewrite Es. reflexivity. }
  destruct (posOf X path) as [[[j a] r]|] eqn:Q.
  - assert (HX := posOf_path path _ _ _ _ Q). assert (UN : forall a' r', In (X, a', r') path -> a' = a) by (intros a' r' H'; symmetry; eapply path_fun; eauto).
    assert (EXP : s <> (a, negb h) -> exposed X h s) by (intros Ne a' r' H'; rewrite (UN _ _ H'); exact Ne).
    assert (PN1 : forall v, pieceNo X v = if v then N + Z.of_nat j else X) by (intros v; unfold pieceNo, L_CutGrid4.pieceNo; now rewrite Q).
    destruct h.
    + destruct (i_face_new _ _ _ _ _ V _ _ _ _ _ _ (posOf_nth _ _ _ _ _ Q) F0) as (g & Fg & O). fold N in Fg. rewrite <- (PN1 true) in Fg.
      destruct (Fm _ _ _ Fg) as (gm & FM & NP & MP). exists gm. split; [exact FM|]. unfold newFace in O.
      destruct (saxis_dec s (a, false)) as [E|N1].
      * left. exists a, r. split; [exact HX|]. split; [exact E|]. apply (INT a r g gm HX E); [|exact NP]. cbn [negb]. rewrite PN1. exact O.
      * right. split; [apply EXP; exact N1|]. destruct (saxis_dec s (a, true)) as [->|N2].
        -- apply (KEEP g gm); [apply EXP; exact N1|intros a' r' H'; symmetry; eapply UN; eauto|exact O|exact NP].
        -- apply (MT a r g gm); auto; [|apply O|intros _; apply O]. destruct s as [c []]; cbn; congruence.
    + destruct (i_face_old _ _ _ _ _ V _ _ _ F0) as (g & Fg & O). rewrite <- (PN1 false) in Fg.
      destruct (Fm _ _ _ Fg) as (gm & FM & NP & MP). exists gm. split; [exact FM|]. unfold oldFace in O. rewrite Q in O.
      destruct (saxis_dec s (a, true)) as [E|N1].
      * left. exists a, r. split; [exact HX|]. split; [exact E|]. apply (INT a r g gm HX E); [|exact NP]. cbn [negb]. rewrite PN1. exact O.
      * right. split; [apply EXP; exact N1|]. destruct (saxis_dec s (a, false)) as [->|N2].
        -- apply (KEEP g gm); [apply EXP; exact N1|intros a' r' H'; symmetry; eapply UN; eauto|exact O|exact NP].
        -- destruct O as (SC & Z0 & KP). apply (MT a r g gm); auto. destruct s as [c []]; cbn; congruence.
  - assert (NX : forall a r, ~ In (X, a, r) path) by (intros a r H; destruct (path_posOf path ND _ _ _ H); congruence).
    assert (PN1 : forall v, pieceNo X v = X) by (intros v; unfold pieceNo, L_CutGrid4.pieceNo; now rewrite Q).
    destruct (i_face_old _ _ _ _ _ V _ _ _ F0) as (g & Fg & O). rewrite <- (PN1 h) in Fg.
    destruct (Fm _ _ _ Fg) as (gm & FM & NP & MP). exists gm. split; [exact FM|]. unfold oldFace in O. rewrite Q in O.
    right. assert (EX : exposed X h s) by (intros a r H; destruct (NX _ _ H)). split; [exact EX|].
    apply (KEEP g gm); [exact EX|intros a r H; destruct (NX _ _ H)|exact O|exact NP].
Qed.

Definition idO : orient := fun a => (a, true).
Lemma idO_legal : legal idO. Proof. intros x y. cbn. auto. Qed.
Lemma act_id s : act idO s = s.
Proof. destruct s as [c []]; reflexivity. Qed.

(** The connections of the result. *)
Lemma m_conn X h s Y' t o : valid X h -> conn m (pieceNo X h) s Y' t o ->
  (exists a r, In (X, a, r) path /\ s = (a, negb h) /\ t = (a, h) /\ Y' = pieceNo X (negb h) /\ forall c, o c = (c, true)) \/
  exists Y h' , Y' = pieceNo Y h' /\ jr X h s Y h' t o.
Proof.
  intros Va (g & Fg & Ng & L & Og & Et). destruct Va as [[b Hb] Vb].
  destruct (fac_ex mb0 X b s W0 Hb) as [g0 F0]. destruct (m_face X h s g0 F0 (conj (ex_intro _ b Hb) Vb)) as (g' & F' & D).
  rewrite (fac_fun _ _ _ _ _ Fg F') in *. clear Fg. destruct D as [(a & r & HX & Es & (I1 & I2 & _))|(EX & SC & Z0 & KP)].
  - left. exists a, r. split; [exact HX|]. split; [exact Es|].
    assert (Eo : forall c, o c = (c, true)). { apply show_inj. change (fun a => (a, true)) with idO in *. congruence. }
    split.
    + rewrite Et, Es. unfold act. cbn [fst snd]. rewrite Eo. destruct h; reflexivity.
    + split; [congruence|exact Eo].
  - right. destruct (neighbor (topo g0)) as [B|] eqn:NB; [|rewrite (Z0 eq_refl) in Ng; discriminate].
    destruct (closed_conn _ _ _ _ _ C0 F0 NB) as (t0 & o0 & Cn). 
    assert (EO : forall c, o0 c = o c).
    { destruct Cn as (g1 & F1 & _ & _ & O1 & _). rewrite (fac_fun _ _ _ _ _ F1 F0) in O1. apply show_inj.
      destruct SC as (_ & _ & _ & SO & _). congruence. }
    assert (Cn2 : conn mb0 X s B t o).
    { destruct Cn as (g1 & F1 & N1 & L1 & O1 & E1). exists g1. split; [exact F1|]. split; [exact N1|]. split; [exact L|]. split; [|exact Et].
      rewrite O1. f_equal. unfold show. now rewrite !EO. }
    destruct (KP _ _ _ Cn2) as (h' & J & NJ). exists B, h'. split; [congruence|exact J].
Qed.

Lemma jr_conn X h s Y h' t o : valid X h -> jr X h s Y h' t o -> conn m (pieceNo X h) s (pieceNo Y h') t o.
Proof.
  intros Va J. pose proof J as (Cn & Va' & EX & EX' & LA). pose proof Cn as (g0 & F0 & N0 & L & O0 & Et).
  destruct (m_face X h s g0 F0 Va) as (g & Fg & D). destruct D as [(a & r & HX & Es & _)|(_ & SC & Z0 & KP)].
  - destruct (EX _ _ HX Es).
  - destruct (KP _ _ _ Cn) as (h2 & J2 & N2). rewrite (jr_unique _ _ _ _ _ _ _ _ J J2). exists g. split; [exact Fg|]. split; [exact N2|].
    split; [exact L|]. split; [|exact Et]. destruct SC as (_ & _ & _ & SO & _). congruence.
Qed.

Lemma interface X h a r : In (X, a, r) path -> conn m (pieceNo X h) (a, negb h) (pieceNo X (negb h)) (a, h) idO.
Proof.
  intros HX. assert (Va := valid_path mb0 n0 path ND InP X a r h HX). pose proof Va as [[b Hb] Vb].
  destruct (fac_ex mb0 X b (a, negb h) W0 Hb) as [g0 F0]. destruct (m_face X h _ g0 F0 Va) as (g & Fg & D).
  destruct D as [(a' & r' & HX' & Es & (I1 & I2 & _))|(EX & _)].
  - exists g. split; [exact Fg|]. split; [exact I1|]. split; [apply idO_legal|]. split; [exact I2|]. rewrite act_id. unfold S_Topology.flip. cbn. now rewrite negb_involutive.
  - exfalso. eapply EX; eauto.
Qed.

Lemma valid_negb X h a r : In (X, a, r) path -> valid X (negb h).
Proof. intros HX. eapply valid_path; eauto. Qed.

Lemma m_paired : paired m.
Proof.
  intros X' s Y' t o Cn. pose proof Cn as (g & (b & Hb & _) & _). destruct (m_piece _ _ Hb) as (X & h & -> & Va).
  destruct (m_conn _ _ _ _ _ _ Va Cn) as [(a & r & HX & -> & -> & -> & Eo)|(Y & h' & -> & J)].
  - split.
    + intros E. injection E as E _. apply (pieceNo_inj mb0 path) in E; [|exact Va|eapply valid_negb; eauto]. destruct E as [_ E]. destruct h; discriminate.
    + exists idO. split.
      * intros [c []]; unfold act; cbn [fst snd]; rewrite Eo; reflexivity.
      * pose proof (interface X (negb h) a r HX) as Q. rewrite negb_involutive in Q. exact Q.
  - destruct (jr_sym _ _ _ _ _ _ _ Va J) as (o' & Iv & J'). pose proof J as (Cn0 & Va' & _). split.
    + intros E. injection E as E ->. apply (pieceNo_inj mb0 path) in E; [|exact Va|exact Va']. destruct E as [<- _].
      destruct (P0 _ _ _ _ _ Cn0) as [Ne _]. congruence.
    + exists o'. split; [exact Iv|]. apply jr_conn; assumption.
Qed.

Lemma m_fac_kind X' s g : fac m X' (faceNo s) g -> exists X h g0, X' = pieceNo X h /\ valid X h /\ fac mb0 X (faceNo s) g0 /\
  ((exists a r, In (X, a, r) path /\ s = (a, negb h) /\ interiorTo (pieceNo X (negb h)) g) \/
   (exposed X h s /\ sameCondition g g0 /\ (neighbor (topo g0) = None -> neighbor (topo g) = None) /\
    forall Y t o, conn mb0 X s Y t o -> exists h', jr X h s Y h' t o /\ neighbor (topo g) = Some (pieceNo Y h'))).
Proof.
  intros F. pose proof F as (b & Hb & _). destruct (m_piece _ _ Hb) as (X & h & -> & Va). pose proof Va as [[b0 Hb0] _].
  destruct (fac_ex mb0 X b0 s W0 Hb0) as [g0 F0]. destruct (m_face X h s g0 F0 Va) as (g' & F' & D). rewrite (fac_fun _ _ _ _ _ F F') in *.
  exists X, h, g0. auto.
Qed.

Lemma m_closed : closed m.
Proof.
  intros X' k g B F NB. destruct (face_of_no k (fac_range _ _ _ _ F)) as [s ->].
  destruct (m_fac_kind _ _ _ F) as (X & h & g0 & -> & Va & F0 & D).
  destruct D as [(a & r & HX & _ & (I1 & I2 & _))|(_ & SC & Z0 & KP)].
  - split; [|exists idO; split; [apply idO_legal|exact I2]].
    assert (B = pieceNo X (negb h)) as -> by congruence. pose proof (valid_negb X h a r HX) as Vn. pose proof Vn as [[b Hb] _].
    destruct (m_geo _ _ _ Hb Vn) as (b' & Hb' & _). eauto.
  - destruct (neighbor (topo g0)) as [B0|] eqn:N0; [|rewrite (Z0 eq_refl) in NB; discriminate].
    destruct (closed_conn _ _ _ _ _ C0 F0 N0) as (t & o & Cn). destruct (KP _ _ _ Cn) as (h' & (_ & Vn & _) & NJ). split.
    + assert (B = pieceNo B0 h') as -> by congruence. pose proof Vn as [[b Hb] _]. destruct (m_geo _ _ _ Hb Vn) as (b' & Hb' & _). eauto.
    + destruct Cn as (g1 & F1 & _ & L & O & _). rewrite (fac_fun _ _ _ _ _ F1 F0) in O. exists o. split; [exact L|].
      destruct SC as (_ & _ & _ & SO & _). congruence.
Qed.

Lemma m_ready n k g : fac m n k g -> periodicReady g.
Proof.
  intros F. destruct (face_of_no k (fac_range _ _ _ _ F)) as [s ->].
  destruct (m_fac_kind _ _ _ F) as (X & h & g0 & -> & Va & F0 & D).
  destruct D as [(a & r & HX & _ & (_ & _ & TY & _))|(_ & SC & _)].
  - intros P. rewrite TY in P. discriminate.
  - eapply same_ready; eauto.
Qed.

Lemma path_points X a r b : In (X, a, r) path -> blk mb0 X b -> points b a = n0.
Proof. intros HX Hb. destruct (InP _ _ _ HX) as (b' & Hb' & E). now rewrite (blk_fun _ _ _ _ Hb Hb'). Qed.

(** Counts and offsets, unfolded. *)
Lemma cnts_in b X h a r c : In (X, a, r) path ->
  cnts b X h c = if axis_eqb c a then (if h then points b c - cutAt n0 idx r else cutAt n0 idx r + 1) else points b c.
Proof. intros H. destruct (path_posOf path ND _ _ _ H) as [j Q]. unfold cnts, L_CutGrid4.cnts. now rewrite Q. Qed.
Lemma offs_in X h a r c : In (X, a, r) path -> offs X h c = if axis_eqb c a && h then cutAt n0 idx r else 0.
Proof. intros H. destruct (path_posOf path ND _ _ _ H) as [j Q]. unfold offs, L_CutGrid4.offs. now rewrite Q. Qed.
Lemma posOf_notin X : (forall a r, ~ In (X, a, r) path) -> posOf X path = None.
Proof. intros H. destruct (posOf X path) as [[[j a] r]|] eqn:Q; [|reflexivity]. exfalso. eapply H, posOf_path; eauto. Qed.
Lemma cnts_out b X h c : (forall a r, In (X, a, r) path -> c <> a) -> cnts b X h c = points b c.
Proof.
  intros H. unfold cnts, L_CutGrid4.cnts. destruct (posOf X path) as [[[j a] r]|] eqn:Q; [|reflexivity].
  destruct (axis_eqb_spec c a) as [E|_]; [|reflexivity]. exfalso. eapply H; eauto. eapply posOf_path; eauto.
Qed.
Lemma offs_out X h c : (forall a r, In (X, a, r) path -> c <> a) -> offs X h c = 0.
Proof.
  intros H. unfold offs, L_CutGrid4.offs. destruct (posOf X path) as [[[j a] r]|] eqn:Q; [|reflexivity].
  destruct (axis_eqb_spec c a) as [E|_]; [|reflexivity]. exfalso. eapply H; eauto. eapply posOf_path; eauto.
Qed.
Lemma cut_r r : 0 < cutAt n0 idx r < n0 - 1.
Proof. eapply cutAt_range; eauto. Qed.

Lemma m_size n b a : blk m n b -> 2 <= points b a.
Proof.
  intros Hb. destruct (m_piece _ _ Hb) as (X & h & -> & Va). pose proof Va as [[b0 Hb0] _]. destruct (m_geo _ _ _ Hb0 Va) as (b' & Hb' & PT & _).
  rewrite (blk_fun _ _ _ _ Hb Hb'), PT. pose proof (good_size _ G0 _ _ a Hb0).
  destruct (in_path_dec X) as [(c & r & HX)|NX].
  - rewrite (cnts_in _ _ _ _ _ _ HX). destruct (axis_eqb_spec a c) as [->|_]; [|assumption]. pose proof (path_points _ _ _ _ HX Hb0). pose proof (cut_r r). destruct h; lia.
  - rewrite cnts_out; [assumption|]. intros c r HX. destruct (NX _ _ HX).
Qed.

(** An index of a piece, seen in the uncut block. *)
Lemma range_up X h b0 c x : blk mb0 X b0 -> 0 <= x < cnts b0 X h c -> 0 <= x + offs X h c < points b0 c.
Proof.
  intros Hb H. destruct (in_path_dec X) as [(a & r & HX)|NX].
  - rewrite (cnts_in _ _ _ _ _ _ HX) in H. rewrite (offs_in _ _ _ _ _ HX). destruct (axis_eqb_spec c a) as [->|_]; cbn [andb]; [|lia].
    pose proof (path_points _ _ _ _ HX Hb). pose proof (cut_r r). destruct h; lia.
  - rewrite cnts_out in H by (intros a r HX; destruct (NX _ _ HX)). rewrite offs_out by (intros a r HX; destruct (NX _ _ HX)). lia.
Qed.
Lemma side_up X h b0 b s p : blk mb0 X b0 -> (forall c, points b c = cnts b0 X h c) -> exposed X h s -> onSide b s p ->
  onSide b0 s (fun c => p c + offs X h c).
Proof.
  intros Hb PT EX [R E]. split.
  - intros c. apply (range_up X h b0 c); [exact Hb|]. rewrite <- PT. apply R.
  - rewrite E, PT. destruct (in_path_dec X) as [(a & r & HX)|NX].
    + rewrite (cnts_in _ _ _ _ _ _ HX), (offs_in _ _ _ _ _ HX). specialize (EX _ _ HX). destruct s as [c v]. cbn [fst snd] in *.
      destruct (axis_eqb_spec c a) as [->|_]; cbn [andb]; [|destruct v; lia].
      destruct h, v; cbn [negb] in EX; try congruence; lia.
    + rewrite cnts_out by (intros a r HX; destruct (NX _ _ HX)). rewrite offs_out by (intros a r HX; destruct (NX _ _ HX)). destruct (snd s); lia.
Qed.

Lemma conn_legal mb X s Y t o : conn mb X s Y t o -> legal o /\ t = S_Topology.flip (act o s) /\ fst t = fst (o (fst s)).
Proof. intros (g & _ & _ & L & _ & E). split; [exact L|]. split; [exact E|]. rewrite E. apply fst_flip_act. Qed.

(** How counts and offsets correspond across an old joint. *)
Lemma jr_across X h s Y h' t o b0 b0' : jr X h s Y h' t o -> blk mb0 X b0 -> blk mb0 Y b0' ->
  (forall c, c <> fst s -> points b0' (fst (o c)) = points b0 c) ->
  forall c, c <> fst s -> cnts b0' Y h' (fst (o c)) = cnts b0 X h c /\
    offs Y h' (fst (o c)) = (if snd (o c) then offs X h c else points b0 c - cnts b0 X h c - offs X h c).
Proof.
  intros (Cn & Va' & EX & EX' & LA) Hb Hb' PE c Hc. destruct (conn_legal _ _ _ _ _ _ Cn) as (L & Et & Ft).
  destruct (lateral_dec X s) as [(a & r & HX & Hs)|AL].
  - assert (HY := Lat _ _ _ _ _ _ _ HX Hs Cn). rewrite (cnts_in _ _ _ _ _ _ HX), (cnts_in _ _ _ _ _ _ HY), (offs_in _ _ _ _ _ HX), (offs_in _ _ _ _ _ HY).
    destruct (axis_eqb_spec c a) as [->|Nc].
    + rewrite axis_eqb_refl. rewrite (PE a Hc). cbn [andb]. rewrite (LA _ _ HX Hs). pose proof (path_points _ _ _ _ HX Hb) as Pn. rewrite Pn.
      unfold cutAt. destruct (snd (o a)), h, r; cbn [negb]; lia.
    + destruct (axis_eqb_spec (fst (o c)) (fst (o a))) as [E|_]; [exfalso; apply Nc, L, E|]. cbn [andb]. rewrite (PE c Hc). destruct (snd (o c)); lia.
  - assert (NX : forall a r, In (X, a, r) path -> c <> a) by (intros a r HX E; apply Hc; rewrite (AL _ _ HX); exact E).
    assert (NY : forall a r, In (Y, a, r) path -> fst (o c) <> a).
    { intros a r HY E. apply Hc, L. rewrite <- Ft, (end_to_end _ _ _ _ _ _ _ Cn HY AL). exact E. }
    rewrite (cnts_out _ _ _ _ NX), (cnts_out _ _ _ _ NY), (offs_out _ _ _ NX), (offs_out _ _ _ NY), (PE c Hc). destruct (snd (o c)); lia.
Qed.

Lemma close_refl p : close p p.
Proof. destruct p as [[x y] z]. unfold close. rewrite !Rminus_diag_eq by reflexivity. lra. Qed.

Lemma m_coincident : coincident m.
Proof.
  intros X' s Y' t o b b' g Cn Hb Hb' Fg. destruct (m_piece _ _ Hb) as (X & h & -> & Va). pose proof Va as [[b0 Hb0] _].
  destruct (m_geo _ _ _ Hb0 Va) as (b1 & Hb1 & PT & NO). rewrite <- (blk_fun _ _ _ _ Hb Hb1) in PT, NO. clear b1 Hb1.
  destruct (m_conn _ _ _ _ _ _ Va Cn) as [(a & r & HX & -> & -> & -> & Eo)|(Y & h' & -> & J)].
  - assert (Vn := valid_negb X h a r HX).
    destruct (m_geo _ _ _ Hb0 Vn) as (b1 & Hb1 & PT' & NO'). rewrite <- (blk_fun _ _ _ _ Hb' Hb1) in PT', NO'. clear b1 Hb1.
    assert (Pn := path_points _ _ _ _ HX Hb0).
    split.
    + intros c Hc. cbn [fst] in Hc. rewrite Eo. cbn [fst]. rewrite PT, PT', !(cnts_in _ _ _ _ _ _ HX). destruct (axis_eqb_spec c a) as [E|_]; [congruence|reflexivity].
    + intros p p' [R1 E1] [[R2 E2] F]. exists (node b p).
      assert (TY : bcType (topo g) = "b0"%string).
      { destruct (fac_ex mb0 X b0 (a, negb h) W0 Hb0) as [g0 F0]. destruct (m_face X h _ g0 F0 Va) as (g' & F' & D). rewrite (fac_fun _ _ _ _ _ Fg F').
        destruct D as [(a' & r' & _ & _ & (_ & _ & TY & _))|(EX & _)]; [exact TY|]. exfalso. eapply EX; eauto. }
      split.
      * unfold translated. destruct (node b p) as [[x y] z]. rewrite TY. reflexivity.
      * rewrite NO, NO'. rewrite (node_ext b0 (fun c => p' c + offs X (negb h) c) (fun c => p c + offs X h c)); [apply close_refl|].
        intros c. rewrite !(offs_in _ _ _ _ _ HX). destruct (axis_eqb_spec c a) as [->|Nc]; cbn [andb].
        -- cbn [fst snd] in E1. rewrite PT, (cnts_in _ _ _ _ _ _ HX), axis_eqb_refl in E1.
           assert (EF : S_Topology.flip (act o (a, negb h)) = (a, h)).
           { unfold act. cbn [fst snd]. rewrite Eo. destruct h; reflexivity. }
           rewrite EF in E2. cbn [fst snd] in E2. rewrite PT', (cnts_in _ _ _ _ _ _ HX), axis_eqb_refl in E2.
           destruct h; cbn [negb] in *; lia.
        -- specialize (F c). rewrite Eo in F. cbn [fst snd] in F. rewrite (F Nc). reflexivity.
  - pose proof J as (Cn0 & Va' & EX & EX' & LA). pose proof Va' as [[b0' Hb0'] _].
    destruct (m_geo _ _ _ Hb0' Va') as (b1 & Hb1 & PT' & NO'). rewrite <- (blk_fun _ _ _ _ Hb' Hb1) in PT', NO'. clear b1 Hb1.
    destruct (fac_ex mb0 X b0 s W0 Hb0) as [g0 F0].
    destruct (good_coincident _ G0 _ _ _ _ _ _ _ _ Cn0 Hb0 Hb0' F0) as [PE CO].
    pose proof (jr_across _ _ _ _ _ _ _ _ _ J Hb0 Hb0' PE) as AC. split.
    + intros c Hc. rewrite PT, PT'. apply (AC c Hc).
    + intros p p' Sp [Sp' F].
      destruct (CO (fun c => p c + offs X h c) (fun c => p' c + offs Y h' c)) as (q & TR & CL).
      * eapply side_up; eauto.
      * split.
        -- destruct (conn_legal _ _ _ _ _ _ Cn0) as (_ & Et & _). rewrite <- Et in *. eapply side_up; eauto.
        -- intros c Hc. destruct (AC c Hc) as [_ A2]. rewrite (F c Hc), A2, PT. destruct (snd (o c)); lia.
      * exists q. rewrite NO, NO'. split; [|exact CL]. eapply translated_same; [|exact TR].
        destruct (m_face X h s g0 F0 Va) as (g' & F' & D). rewrite (fac_fun _ _ _ _ _ Fg F').
        destruct D as [(a' & r' & HX' & Es & _)|(_ & SC & _)]; [|exact SC]. exfalso. eapply EX; eauto.
Qed.

Lemma m_good : goodGrid m.
Proof. constructor; [exact Wm|exact m_closed|exact m_paired|exact m_coincident|exact m_size|exact m_ready]. Qed.

Lemma pieceNo_false X : pieceNo X false = X.
Proof. unfold pieceNo, L_CutGrid4.pieceNo. destruct (posOf X path) as [[[? ?] ?]|]; reflexivity. Qed.
Lemma pieceNo_true j A a r : nth_error path j = Some (A, a, r) -> pieceNo A true = Z.of_nat (length mb0 + j).
Proof. intros Q. unfold pieceNo, L_CutGrid4.pieceNo. rewrite (nth_posOf _ _ _ _ ND _ Q). lia. Qed.

Lemma nbr_iff X h s g0 g : fac mb0 X (faceNo s) g0 -> (neighbor (topo g0) = None -> neighbor (topo g) = None) ->
  (forall Y t o, conn mb0 X s Y t o -> exists h', jr X h s Y h' t o /\ neighbor (topo g) = Some (pieceNo Y h')) ->
  (neighbor (topo g) = None <-> neighbor (topo g0) = None).
Proof.
  intros F0 Z0 KP. split; [|exact Z0]. intros H. destruct (neighbor (topo g0)) as [B|] eqn:NB; [|reflexivity].
  destruct (closed_conn _ _ _ _ _ C0 F0 NB) as (t & o & Cn). destruct (KP _ _ _ Cn) as (h' & _ & E). congruence.
Qed.

Lemma m_cutUp : cutUp mb0 path n0 idx m.
Proof.
  assert (LEN := i_len _ _ _ _ _ V).
  constructor.
  - rewrite Lm. lia.
  - intros A b Hb NI. assert (NX : forall a r, ~ In (A, a, r) path).
    { intros a r H. apply NI. apply in_map_iff. exists (A, a, r). auto. }
    assert (Va : valid A false) by (split; [eauto|auto]).
    destruct (m_geo _ _ _ Hb Va) as (b' & Hb' & PT & NO). rewrite pieceNo_false in Hb'. exists b'. split; [exact Hb'|]. split.
    + intros c. rewrite PT. apply cnts_out. intros a r H. destruct (NX _ _ H).
    + intros p. rewrite NO. apply node_ext. intros c. rewrite offs_out; [lia|]. intros a r H. destruct (NX _ _ H).
  - intros A a r b HA Hb. destruct (m_geo _ _ _ Hb (valid_path mb0 n0 path ND InP _ _ _ false HA)) as (b' & Hb' & PT & NO). rewrite pieceNo_false in Hb'.
    exists b'. split; [exact Hb'|]. split.
    + intros c. rewrite PT. exact (cnts_in b A false a r c HA).
    + intros p. rewrite NO. apply node_ext. intros c. rewrite (offs_in _ _ _ _ _ HA), andb_false_r. lia.
  - intros j A a r b Q Hb. assert (HA : In (A, a, r) path) by (eapply nth_error_In; eauto).
    destruct (m_geo _ _ _ Hb (valid_path mb0 n0 path ND InP _ _ _ true HA)) as (b' & Hb' & PT & NO). rewrite (pieceNo_true _ _ _ _ Q) in Hb'.
    exists b'. split; [exact Hb'|]. split.
    + intros c. rewrite PT, (cnts_in _ _ _ _ _ _ HA). destruct (axis_eqb_spec c a) as [->|_]; reflexivity.
    + intros p. rewrite NO. apply node_ext. intros c. unfold shift. rewrite (offs_in _ _ _ _ _ HA), andb_true_r. destruct (axis_eqb c a); lia.
  - intros A s g F NI. assert (Va : valid A false). { split; [|auto]. destruct (fac_blk _ _ _ _ F) as [b Hb]. eauto. }
    destruct (m_face A false s g F Va) as (g' & F' & D). rewrite pieceNo_false in F'. exists g'. split; [exact F'|].
    destruct D as [(a & r & HA & Es & _)|(_ & SC & Z0 & KP)]; [exfalso; apply NI; exists a, r; split; assumption|]. split; [exact SC|]. eapply nbr_iff; eauto.
  - intros j A a r s g Q F Ns. assert (HA : In (A, a, r) path) by (eapply nth_error_In; eauto).
    destruct (m_face A true s g F (valid_path mb0 n0 path ND InP _ _ _ true HA)) as (g' & F' & D). rewrite (pieceNo_true _ _ _ _ Q) in F'.
    exists g'. split; [exact F'|]. destruct D as [(a' & r' & HA' & Es & _)|(_ & SC & Z0 & KP)].
    + destruct (path_fun path ND _ _ _ _ _ HA HA') as [<- _]. cbn in Es. congruence.
    + split; [exact SC|]. eapply nbr_iff; eauto.
  - intros j A a r Q. assert (HA : In (A, a, r) path) by (eapply nth_error_In; eauto).
    destruct (InP _ _ _ HA) as (b & Hb & _).
    destruct (fac_ex mb0 A b (a, true) W0 Hb) as [g0 F0]. destruct (fac_ex mb0 A b (a, false) W0 Hb) as [h0 H0].
    destruct (m_face A false _ _ F0 (valid_path mb0 n0 path ND InP _ _ _ false HA)) as (g & Fg & D).
    destruct (m_face A true _ _ H0 (valid_path mb0 n0 path ND InP _ _ _ true HA)) as (h & Fh & D').
    rewrite pieceNo_false in Fg. rewrite (pieceNo_true _ _ _ _ Q) in Fh. exists g, h.
    destruct D as [(a1 & r1 & HA1 & _ & IT)|(EX & _)]; [|destruct (EX _ _ HA eq_refl)].
    destruct D' as [(a2 & r2 & HA2 & _ & IT')|(EX & _)]; [|destruct (EX _ _ HA eq_refl)].
    cbn [negb] in IT, IT'. rewrite (pieceNo_true _ _ _ _ Q) in IT. rewrite pieceNo_false in IT'. exact (conj Fg (conj IT (conj Fh IT'))).
Qed.
End Result.
