(** C137: cutting a connected grid gives a connected grid. *)
From Coq Require Import ZArith String Ascii List Bool Lia Reals Lra.
From Verif Require Import M_Topology S_Topology L_Topology P_Topology M_Cut S_Cut L_Cut L_Cut2 P_Cut P_CutPath M_CutGrid S_CutGrid L_CutGrid1 L_CutGrid2 L_CutGrid3 L_CutGrid4 L_CutGrid5.
Import ListNotations.
Open Scope Z_scope.

(** One cut: for every good grid, every block of it, every axis and every index inside the block, if the surface
    passes through no block twice in different ways and the centres of the pieces tell them apart, the utility
    succeeds; the result is the cut grid, and it is again a good grid: all pieces are joined exactly where
    they touch. *)
Theorem C137_cut_once : forall mb n b a idx, goodGrid mb -> blk mb n b -> 0 < idx < points b a - 1 ->
  unambiguous mb (n, a, false) -> clearCut mb (n, a, false) (points b a) idx ->
  exists path mb', (forall fuel, (length mb <= fuel)%nat -> cutOnce fuel mb n (letter a) idx = Some (Some mb')) /\
    NoDup (map (fun x : cutState => fst (fst x)) path) /\ (forall x, In x path <-> reached mb (n, a, false) x) /\
    cutUp mb path (points b a) idx mb' /\ goodGrid mb'.
Proof.
  intros mb n b a idx G Hb Hi UA CL. pose proof (good_wf _ G) as W. pose proof (good_closed _ G) as C.
  destruct (C77_cut_path mb n b a W C Hb) as (path & EP & ND & HD & RE & _ & UE). specialize (UE UA).
  assert (Lat : forall A c r s B s' o, In (A, c, r) path -> fst s <> c -> conn mb A s B s' o ->
            In (B, fst (o c), if snd (o c) then r else negb r) path).
  { intros A c r s B s' o HA Hs (g & Fg & Ng & L & O & Es). apply UE. eapply r_next; [apply UE; exact HA|].
    exists s, g, o. auto 8. }
  assert (RP : forall x, reached mb (n, a, false) x -> let '(A, c, r) := x in exists b', blk mb A b' /\ points b' c = points b a).
  { intros x H. induction H as [|[[A c] r] [[B d] q] H IH (s & g & o & Hs & Fg & Ng & L & O & <- & ->)].
    - eauto.
    - destruct IH as (b1 & Hb1 & E1). destruct (C _ _ _ _ Fg Ng) as [[b2 Hb2] _]. exists b2. split; [exact Hb2|].
      assert (Cn : conn mb A s B (S_Topology.flip (act o s)) o) by (exists g; auto 8).
      destruct (good_coincident _ G _ _ _ _ _ _ _ _ Cn Hb1 Hb2 Fg) as [PE _]. rewrite PE; [exact E1|congruence]. }
  assert (InP : forall A c r, In (A, c, r) path -> exists b', blk mb A b' /\ points b' c = points b a).
  { intros A c r H. apply UE in H. exact (RP _ H). }
  set (n0 := points b a) in *.
  destruct (cut_all mb W C (good_paired _ G) (good_periodic _ G) n0 idx Hi path ND InP Lat) as (mbc & ff & EI & T & V).
  assert (NDb : NoDup (map fst ff)).
  { eapply table_nodup; [exact T|exact ND|]. intros A c r H. destruct (InP _ _ _ H) as (b' & Hb' & _). now apply blk_lt in Hb'. }
  assert (Clear : forall A a r h s g q B a' r' h' s' g' b b',
    In (A, a, r) path -> In (B, a', r') path -> blk mb A b -> blk mb B b' ->
    fst s <> a -> fst s' <> a' -> fac mb A (faceNo s) g -> fac mb B (faceNo s') g' ->
    neighbor (topo g) <> None -> neighbor (topo g') <> None -> (A, h, s) <> (B, h', s') ->
    translated g (pieceCentre b a (cutAt n0 idx r) h s) q ->
    close q (pieceCentre b' a' (cutAt n0 idx r') h' s') ->
    exists o, conn mb A s B s' o /\ h' = (if snd (o a) then h else negb h)).
  { intros A1 a1 r1 h1 s1 g1 q1 B1 a1' r1' h1' s1' g1' b1 b1' H1 H2. apply UE in H1, H2. intros. eapply CL; eauto. }
  destruct (findInterior_spec mbc ff (i_wf _ _ _ _ _ V) NDb) with (Mate := Mate mb path)
    as (m & EF & Wm & Lm & Bm & Fm).
  - intros X l Hl. destruct (table_in mb _ _ _ _ _ T Hl) as (i & A & c & r & Q & D & [LL _]). split; [|exact LL].
    apply blk_ex. rewrite (i_len _ _ _ _ _ V). assert (i < length path)%nat by (apply nth_error_Some; congruence).
    destruct (InP A c r (nth_error_In _ _ Q)) as (b' & Hb' & _). apply blk_lt in Hb'. destruct D as [-> | ->]; lia.
  - intros p q. apply (M1 mb G n0 idx Hi path ND InP Lat ff T).
  - intros p q q'. apply (M2 mb n0 path ND InP).
  - intros p. apply (M3 mb G n0 idx Hi path ND InP ff T).
  - intros X k. apply (Near mb G n0 idx Hi path ND InP Lat Clear mbc V ff T).
  - exists path, m. split.
    + intros fuel HF. unfold cutOnce. rewrite (EP fuel HF), (getBlk_blk _ _ _ W Hb), countAlong_points. fold n0.
      change (map (fun x : cutState => let '(B, c, r) := x in (B, letter c, r)) path) with (map enc path).
      unfold switchCutIndex. rewrite EI, EF. reflexivity.
    + split; [exact ND|]. split; [exact UE|]. split.
      * apply (m_cutUp mb G n0 idx Hi path ND InP Lat mbc V ff T m Lm Bm Fm).
      * apply (m_good mb G n0 idx Hi path ND InP Lat mbc V ff T m Wm Lm Bm Fm).
Qed.

(** * Several cuts *)

(** The cuts of a list of operations (block, axis, number of cuts), one after the other, each in a good grid and clear. *)
Theorem C137_operations : forall ops mb, goodGrid mb -> feasibleOps ops mb ->
  exists fuel0 mb', (forall fuel, (fuel0 <= fuel)%nat ->
      performCuts fuel (map (fun x => let '(n, a, c) := x in (n, letter a, c)) ops) mb = Some (Some mb')) /\
    cutDown ops mb mb' /\ goodGrid mb'.
Proof.
  assert (TIMES : forall n a og nc cuts mb, goodGrid mb -> feasible n a (map (cutIndex og nc) cuts) mb ->
    exists fuel0 mb', (forall fuel, (fuel0 <= fuel)%nat -> cutTimes fuel n (letter a) og nc cuts mb = Some (Some mb')) /\
      cutInTurn n a (map (cutIndex og nc) cuts) mb mb' /\ goodGrid mb').
  { intros n a og nc. induction cuts as [|c cuts IH]; intros mb G F.
    - exists 0%nat, mb. split; [reflexivity|]. split; [constructor|exact G].
    - cbn [map feasible] in F. destruct F as (b & Hb & Hi & UA & CL & NX).
      destruct (C137_cut_once mb n b a _ G Hb Hi UA CL) as (path & mb1 & EC & ND & UE & CU & G1).
      destruct (IH mb1 G1 (NX _ _ ND UE CU G1)) as (f1 & mb2 & E2 & T2 & G2).
      exists (Nat.max (length mb) f1), mb2. split; [|split; [|exact G2]].
      + intros fuel HF. cbn [cutTimes]. rewrite EC by lia. apply E2. lia.
      + cbn [map]. econstructor; eauto. }
  induction ops as [|[[n a] nc] ops IH]; intros mb G F.
  - exists 0%nat, mb. split; [reflexivity|]. split; [constructor|exact G].
  - cbn [feasibleOps] in F. destruct F as (b & Hb & FE & NX).
    assert (ME : map (cutIndex (points b a) nc) (map Z.of_nat (seq 0 (Z.to_nat nc))) = indices (points b a) nc).
    { unfold indices. rewrite map_map. reflexivity. }
    rewrite <- ME in FE, NX.
    destruct (TIMES n a (points b a) nc (map Z.of_nat (seq 0 (Z.to_nat nc))) mb G FE) as (f1 & mb1 & E1 & T1 & G1).
    destruct (IH mb1 G1 (NX _ T1 G1)) as (f2 & mb2 & E2 & T2 & G2).
    exists (Nat.max f1 f2), mb2. split; [|split; [|exact G2]].
    + intros fuel HF. cbn [map performCuts]. rewrite (getBlk_blk _ _ _ (good_wf _ G) Hb), countAlong_points, E1 by lia. apply E2. lia.
    + econstructor; [exact Hb| |exact T2]. rewrite <- ME. exact T1.
Qed.

(** * A concrete grid: the two turned blocks of P_Cut, cut along the second axis of the first. *)
Definition exO1 : orient := fun a => match a with I => (J, true) | J => (S_Topology.K, false) | S_Topology.K => (I, true) end.
Definition exO2 : orient := fun a => match a with I => (S_Topology.K, true) | J => (I, true) | S_Topology.K => (J, false) end.

Lemma ex_conn A s B t o : conn exMb A s B t o ->
  (A = 0 /\ s = (I, true) /\ B = 1 /\ t = (J, false) /\ forall c, o c = exO1 c) \/
  (A = 1 /\ s = (J, false) /\ B = 0 /\ t = (I, true) /\ forall c, o c = exO2 c).
Proof.
  intros (g & F & Ng & L & O & E). apply exMb_face in F as [(-> & X & ->)|[(-> & X & ->)| ->]]; cbn in Ng; try discriminate Ng; injection Ng as <-.
  - left. assert (s = (I, true)) by (destruct s as [[] []]; cbn in X; congruence). subst s.
    assert (Eo : forall c, o c = exO1 c). { apply show_inj. change (Some "261"%string = Some (show o)) in O. transitivity "261"%string; [congruence|reflexivity]. }
    rewrite E. unfold act. cbn [fst snd]. rewrite Eo. auto.
  - right. assert (s = (J, false)) by (destruct s as [[] []]; cbn in X; congruence). subst s.
    assert (Eo : forall c, o c = exO2 c). { apply show_inj. change (Some "315"%string = Some (show o)) in O. transitivity "315"%string; [congruence|reflexivity]. }
    rewrite E. unfold act. cbn [fst snd]. rewrite Eo. auto.
Qed.
Lemma ex_fac1 : fac exMb 0 (faceNo (I, true)) (exFace 2 (Some (1, "261"%string))).
Proof. eexists; split; [split; [lia|reflexivity]|split; [cbn; lia|reflexivity]]. Qed.
Lemma ex_fac2 : fac exMb 1 (faceNo (J, false)) (exFace 3 (Some (0, "315"%string))).
Proof. eexists; split; [split; [lia|reflexivity]|split; [cbn; lia|reflexivity]]. Qed.
Lemma ex_conn1 : conn exMb 0 (I, true) 1 (J, false) exO1.
Proof.
  exists (exFace 2 (Some (1, "261"%string))). split; [eexists; split; [split; [lia|reflexivity]|split; [cbn; lia|reflexivity]]|].
  split; [reflexivity|]. split; [intros [] []; cbn; congruence|]. split; reflexivity.
Qed.
Lemma ex_conn2 : conn exMb 1 (J, false) 0 (I, true) exO2.
Proof.
  exists (exFace 3 (Some (0, "315"%string))). split; [eexists; split; [split; [lia|reflexivity]|split; [cbn; lia|reflexivity]]|].
  split; [reflexivity|]. split; [intros [] []; cbn; congruence|]. split; reflexivity.
Qed.

Definition exB0 : gblock := mkGB 0 (5, 3, 2) (fun i _ _ => IZR i) (fun _ j _ => IZR j) (fun _ _ k => IZR k)
  (map (fun n => exFace n (if n =? 2 then Some (1, "261"%string) else None)) [1;2;3;4;5;6]).
Definition exB1 : gblock := mkGB 1 (2, 4, 3) (fun i j k => IZR (4 + j)) (fun i j k => IZR (2 - k)) (fun i j k => IZR i)
  (map (fun n => exFace n (if n =? 3 then Some (0, "315"%string) else None)) [1;2;3;4;5;6]).
Lemma ex_b0 b : Some b = nth_error exMb 0 -> b = exB0.
Proof. change (nth_error exMb 0) with (Some exB0). congruence. Qed.
Lemma ex_b1 b : Some b = nth_error exMb 1 -> b = exB1.
Proof. change (nth_error exMb 1) with (Some exB1). congruence. Qed.

Lemma ex_good : goodGrid exMb.
Proof.
  destruct C76_nonvacuous as (W & C & _). constructor; [exact W|exact C| | | |].
  - intros A s B t o Cn. destruct (ex_conn _ _ _ _ _ Cn) as [(-> & -> & -> & -> & Eo)|(-> & -> & -> & -> & Eo)].
    + split; [discriminate|]. exists exO2. split; [|exact ex_conn2]. intros [[] []]; unfold act; cbn [fst snd]; rewrite Eo; reflexivity.
    + split; [discriminate|]. exists exO1. split; [|exact ex_conn1]. intros [[] []]; unfold act; cbn [fst snd]; rewrite Eo; reflexivity.
  - intros A s B t o b b' g Cn Hb Hb' Fg. apply exMb_blk in Hb, Hb'.
    destruct (ex_conn _ _ _ _ _ Cn) as [(-> & -> & -> & -> & Eo)|(-> & -> & -> & -> & Eo)].
    + destruct Hb as [[_ Hb]|[X _]]; [|discriminate]. destruct Hb' as [[X _]|[_ Hb']]; [discriminate|].
      apply ex_b0 in Hb. apply ex_b1 in Hb'. subst b b'. rewrite (fac_fun _ _ _ _ _ Fg ex_fac1). clear Fg g Cn.
      split; [intros [] Hc; cbn in Hc; rewrite Eo; cbn; congruence|].
      intros p p' [R E] [[R' E'] F]. eexists. split; [cbn; reflexivity|].
      assert (FJ := F J ltac:(discriminate)). assert (FK := F S_Topology.K ltac:(discriminate)). rewrite Eo in FJ, FK. cbn [exO1 exO2 fst snd points gshape exB0 exB1] in FJ, FK, E.
      unfold act in E'. cbn [fst snd] in E'. rewrite Eo in E'. cbn [exO1 exO2 fst snd points gshape exB0 exB1 S_Topology.flip negb] in E'. unfold node. cbn [gx gy gz exB0 exB1]. rewrite FJ, FK, E, E'.
      match goal with |- close ?p ?q => replace q with p; [apply close_refl|] end.
      apply f_equal2; [apply f_equal2|]; f_equal; lia.
    + destruct Hb as [[X _]|[_ Hb]]; [discriminate|]. destruct Hb' as [[_ Hb']|[X _]]; [|discriminate].
      apply ex_b1 in Hb. apply ex_b0 in Hb'. subst b b'. rewrite (fac_fun _ _ _ _ _ Fg ex_fac2). clear Fg g Cn.
      split; [intros [] Hc; cbn in Hc; rewrite Eo; cbn; congruence|].
      intros p p' [R E] [[R' E'] F]. eexists. split; [cbn; reflexivity|].
      assert (FI := F I ltac:(discriminate)). assert (FK := F S_Topology.K ltac:(discriminate)). rewrite Eo in FI, FK. cbn [exO1 exO2 fst snd points gshape exB0 exB1] in FI, FK, E.
      unfold act in E'. cbn [fst snd] in E'. rewrite Eo in E'. cbn [exO1 exO2 fst snd points gshape exB0 exB1 S_Topology.flip negb] in E'. unfold node. cbn [gx gy gz exB0 exB1]. rewrite FI, FK, E, E'.
      match goal with |- close ?p ?q => replace q with p; [apply close_refl|] end.
      apply f_equal2; [apply f_equal2|]; f_equal; lia.
  - intros n b a Hb. apply exMb_blk in Hb as [[-> H]|[-> H]]; cbn in H; injection H as ->; destruct a; cbn; lia.
  - intros n k g F Q. exfalso. apply exMb_face in F as [(_ & _ & ->)|[(_ & _ & ->)| ->]]; discriminate Q.
Qed.

Lemma ex_reached x : reached exMb (0, J, false) x -> x = (0, J, false) \/ x = (1, S_Topology.K, true).
Proof.
  intros H. induction H as [|y [[B d] q] H IH Cr]; [auto|].
  assert (D : forall A s g o, fac exMb A (faceNo s) g -> neighbor (topo g) = Some B -> legal o -> orientation (topo g) = Some (show o) ->
     conn exMb A s B (S_Topology.flip (act o s)) o) by (intros A s g o F1 F2 F3 F4; exists g; auto 8).
  destruct IH as [-> | ->]; destruct Cr as (s & g & o & Hs & Fg & Ng & L & O & <- & ->);
    destruct (ex_conn _ _ _ _ _ (D _ _ _ _ Fg Ng L O)) as [(E1 & E2 & E3 & _ & Eo)|(E1 & E2 & E3 & _ & Eo)]; try discriminate E1; subst B; rewrite Eo; cbn; auto.
Qed.
Lemma ex_centre0 b h : Some b = nth_error exMb 0 -> pieceCentre b J (cutAt 3 1 false) h (I, true) = (4, if h then 3 / 2 else 1 / 2, 1 / 2)%R.
Proof.
  intros H. apply ex_b0 in H; subst b. destruct h;
  cbv [exB0 exB1 pieceCentre pieceCorner pieceLo pieceHi node vecAdd fst snd axis_eqb points gshape gx gy gz cutAt Z.sub Z.add Z.opp Z.pos_sub Pos.pred_double Z.double Z.succ_double Z.pred_double];
  apply f_equal2; [apply f_equal2| |apply f_equal2|]; lra.
Qed.
Lemma ex_centre1 b h : Some b = nth_error exMb 1 -> pieceCentre b S_Topology.K (cutAt 3 1 true) h (J, false) = (4, if h then 1 / 2 else 3 / 2, 1 / 2)%R.
Proof.
  intros H. apply ex_b1 in H; subst b. destruct h;
  cbv [exB0 exB1 pieceCentre pieceCorner pieceLo pieceHi node vecAdd fst snd axis_eqb points gshape gx gy gz cutAt Z.sub Z.add Z.opp Z.pos_sub Pos.pred_double Z.double Z.succ_double Z.pred_double];
  apply f_equal2; [apply f_equal2| |apply f_equal2|]; lra.
Qed.
Lemma ex_unambiguous : unambiguous exMb (0, J, false).
Proof.
  intros B c r c' r' H H'. apply ex_reached in H as [H|H], H' as [H'|H']; injection H as -> -> ->; injection H'; intros; subst; try discriminate; auto.
Qed.
Lemma ex_clear : clearCut exMb (0, J, false) 3 1.
Proof.
  intros A a r h s g q B a' r' h' s' g' b b' RA RB Hb Hb' Hs Hs' Fg Fg' Nn Nn' Ne TR CL.
  assert (D : forall A s g, fac exMb A (faceNo s) g -> neighbor (topo g) <> None ->
     (A = 0 /\ s = (I, true) /\ g = exFace 2 (Some (1, "261"%string))) \/ (A = 1 /\ s = (J, false) /\ g = exFace 3 (Some (0, "315"%string)))).
  { intros A1 s1 g1 F1 N1. apply exMb_face in F1 as [(-> & X & ->)|[(-> & X & ->)| ->]]; [left|right|cbn in N1; congruence];
      (split; [reflexivity|split; [|reflexivity]]); destruct s1 as [[] []]; cbn in X; congruence. }
  assert (SB : forall b, (blk exMb 0 b -> Some b = nth_error exMb 0) /\ (blk exMb 1 b -> Some b = nth_error exMb 1)).
  { intros b1. split; intros [_ Q]; symmetry; exact Q. }
  assert (SA : forall a r, (reached exMb (0, J, false) (0, a, r) -> a = J /\ r = false) /\ (reached exMb (0, J, false) (1, a, r) -> a = S_Topology.K /\ r = true)).
  { intros a1 r1. split; intros Q; apply ex_reached in Q as [Q|Q]; try discriminate Q; injection Q as -> ->; auto. }
  destruct (D _ _ _ Fg Nn) as [(-> & -> & ->)|(-> & -> & ->)], (D _ _ _ Fg' Nn') as [(-> & -> & ->)|(-> & -> & ->)];
  apply SA in RA as [-> ->]; apply SA in RB as [-> ->]; apply SB in Hb; apply SB in Hb';
  [rewrite (ex_centre0 _ _ Hb) in TR; rewrite (ex_centre0 _ _ Hb') in CL|rewrite (ex_centre0 _ _ Hb) in TR; rewrite (ex_centre1 _ _ Hb') in CL
  |rewrite (ex_centre1 _ _ Hb) in TR; rewrite (ex_centre0 _ _ Hb') in CL|rewrite (ex_centre1 _ _ Hb) in TR; rewrite (ex_centre1 _ _ Hb') in CL];
  cbn in TR; subst q; unfold close in CL.
  - exfalso. destruct h, h'; try congruence; lra.
  - exists exO1. split; [exact ex_conn1|]. destruct h, h'; try reflexivity; exfalso; lra.
  - exists exO2. split; [exact ex_conn2|]. destruct h, h'; try reflexivity; exfalso; lra.
  - exfalso. destruct h, h'; try congruence; lra.
Qed.

Example C137_nonvacuous : goodGrid exMb /\ (exists b, blk exMb 0 b /\ 0 < 1 < points b J - 1 /\ points b J = 3) /\
  unambiguous exMb (0, J, false) /\ clearCut exMb (0, J, false) 3 1 /\ feasibleOps [(0, J, 1)] exMb.
Proof.
  split; [exact ex_good|]. split; [eexists; split; [split; [lia|reflexivity]|cbn; lia]|]. split; [exact ex_unambiguous|]. split; [exact ex_clear|].
  eexists. split; [split; [lia|reflexivity]|]. split.
  - change (indices (points _ J) 1) with [1]. cbn [feasible]. eexists. split; [split; [lia|reflexivity]|]. split; [cbn; lia|]. split; [exact ex_unambiguous|]. split; [exact ex_clear|]. auto.
  - intros mb' _ _. exact Logic.I.
Qed.

(** * What fails: a cut whose surface crosses a rotationally periodic joint.  The faces of a grid file know the
    axis and the angle, but not the rotation the search wants to use, and the utility stops with an error. *)
Definition rotFace (n : Z) : gface :=
  if n =? 5 then mkGF (mkFace 5 (Some "rot"%string) "periodicRotLow" (Some 0) (Some "123"%string)) (Some 90%R) (Some (1, 0, 0)%R)
  else if n =? 6 then mkGF (mkFace 6 (Some "rot"%string) "periodicRotHigh" (Some 0) (Some "123"%string)) (Some 90%R) (Some (1, 0, 0)%R)
  else exFace n None.
(** A quarter annulus about the x axis: radius [1 + j], angle 0 at [k = 0] and 90 degrees at [k = 1]. *)
Definition rotMb : list gblock :=
  [ mkGB 0 (4, 2, 2) (fun i _ _ => IZR i) (fun _ j k => if k =? 0 then IZR (1 + j) else 0%R)
      (fun _ j k => if k =? 0 then 0%R else IZR (1 + j)) (map rotFace [1;2;3;4;5;6]) ].

Theorem C137_rotational_refuted : wfGrid rotMb /\ closed rotMb /\ paired rotMb /\
  (forall k g, fac rotMb 0 k g -> periodicReady g) /\ unambiguous rotMb (0, I, false) /\
  forall fuel, (1 <= fuel)%nat -> cutOnce fuel rotMb 0 "i" 1 = Some None.
Proof.
  assert (BL : forall n b, blk rotMb n b -> n = 0 /\ Some b = nth_error rotMb 0).
  { intros n b H. pose proof (blk_lt _ _ _ H) as L. cbn in L. destruct H as [_ E]. assert (n = 0) as -> by lia. auto. }
  assert (FA : forall n k g, fac rotMb n k g -> n = 0 /\ 1 <= k <= 6 /\ g = rotFace k).
  { intros n k g (b & B & Kk & E). apply BL in B as [-> B]. cbn in B. injection B as ->. split; [reflexivity|]. split; [exact Kk|].
    assert (D : k = 1 \/ k = 2 \/ k = 3 \/ k = 4 \/ k = 5 \/ k = 6) by lia.
    destruct D as [->|[->|[->|[->|[->| ->]]]]]; cbn in E; injection E as <-; reflexivity. }
  assert (CN : forall A s B t o, conn rotMb A s B t o -> A = 0 /\ B = 0 /\ (forall c, o c = (c, true)) /\
     ((s = (S_Topology.K, false) /\ t = (S_Topology.K, true)) \/ (s = (S_Topology.K, true) /\ t = (S_Topology.K, false)))).
  { intros A s B t o (g & F & Ng & L & O & E). destruct (FA _ _ _ F) as (-> & _ & ->). split; [reflexivity|].
    assert (Eo : forall c, o c = (c, true)).
    { apply show_inj. destruct s as [[] []]; cbn in Ng, O; try discriminate Ng; change (Some "123"%string = Some (show o)) in O;
        (transitivity "123"%string; [congruence|reflexivity]). }
    destruct s as [[] []]; cbn in Ng; try discriminate Ng; injection Ng as <-; rewrite E; unfold act; cbn [fst snd]; rewrite Eo; auto. }
  assert (CO : forall v, conn rotMb 0 (S_Topology.K, v) 0 (S_Topology.K, negb v) (fun c => (c, true))).
  { intros v. exists (rotFace (faceNo (S_Topology.K, v))). split.
    - eexists. split; [split; [lia|reflexivity]|]. split; [apply faceNo_range|]. destruct v; reflexivity.
    - destruct v; (split; [reflexivity|]); (split; [intros x y; cbn; auto|]); split; reflexivity. }
  split; [|split; [|split; [|split; [|split]]]].
  - intros n b H. apply BL in H as [-> H]; cbn in H; injection H as ->; split; reflexivity.
  - intros A k g B F Ng. destruct (FA _ _ _ F) as (-> & Kk & ->). destruct (face_of_no k Kk) as [s ->].
    assert (B = 0) as ->. { destruct s as [[] []]; cbn in Ng; congruence. }
    split; [apply blk_ex; cbn; lia|]. exists (fun c => (c, true)). split; [intros x y; cbn; auto|]. destruct s as [[] []]; cbn in Ng; try discriminate Ng; reflexivity.
  - intros A s B t o Cn. destruct (CN _ _ _ _ _ Cn) as (-> & -> & Eo & D). split; [destruct D as [[-> ->]|[-> ->]]; discriminate|].
    exists (fun c => (c, true)). split; [intros [c []]; unfold act; cbn [fst snd]; rewrite Eo; reflexivity|].
    destruct D as [[-> ->]|[-> ->]]; [apply (CO true)|apply (CO false)].
  - intros k g F Q. destruct (FA _ _ _ F) as (_ & Kk & ->). destruct (face_of_no k Kk) as [s ->].
    destruct s as [[] []]; cbn in Q; try discriminate Q; exists 1%R, 0%R, 0%R; (split; [reflexivity|lra]).
  - assert (RE : forall x, reached rotMb (0, I, false) x -> x = (0, I, false)).
    { intros x H. induction H as [|y [[B d] q] H IH Cr]; [reflexivity|]. subst y. destruct Cr as (s & g & o & Hs & Fg & Ng & L & O & <- & ->).
      assert (Cn : conn rotMb 0 s B (S_Topology.flip (act o s)) o) by (exists g; auto 8).
      destruct (CN _ _ _ _ _ Cn) as (_ & -> & Eo & _). rewrite Eo. reflexivity. }
    intros B c r c' r' H H'. apply RE in H, H'. split; congruence.
  - intros [|[|fuel]] HF; [lia|reflexivity|reflexivity].
Qed.

Print Assumptions C137_cut_once.
Print Assumptions C137_operations.
Print Assumptions C137_rotational_refuted.
