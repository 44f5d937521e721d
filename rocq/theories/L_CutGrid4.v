(** Lemmas for C137, fourth part: the mates of lateral faces and the grid after the search. *)
From Coq Require Import ZArith String Ascii List Bool Lia Reals Lra.
From Verif Require Import M_Topology S_Topology L_Topology P_Topology M_Cut S_Cut L_Cut L_Cut2 P_Cut P_CutPath M_CutGrid S_CutGrid L_CutGrid1 L_CutGrid2 L_CutGrid3.
Import ListNotations.
Open Scope Z_scope.

Lemma inverse_axis o o' a : inverse o o' -> fst (o' (fst (o a))) = a /\ snd (o' (fst (o a))) = snd (o a).
Proof.
  intros H. pose proof (H (a, true)) as E. unfold act, S_Topology.flip in E. cbn [fst snd] in E.
  destruct (o a) as [x []]; cbn [fst snd] in *; rewrite <- ?E; [split; [now rewrite E|now rewrite E]|].
  destruct (o' x) as [y v]. cbn in *. injection E as -> E. split; [reflexivity|]. destruct v; [discriminate|reflexivity].
Qed.
Lemma fst_flip_act o s : fst (S_Topology.flip (act o s)) = fst (o (fst s)).
Proof. unfold S_Topology.flip, act. destruct (snd s); reflexivity. Qed.

Section Final.
Variable mb0 : list gblock.
Let N := Z.of_nat (length mb0).
Hypothesis G0 : goodGrid mb0.
Let W0 := good_wf _ G0.
Let C0 := good_closed _ G0.
Let P0 := good_paired _ G0.
Let R0 := good_periodic _ G0.
Variables n0 idx : Z.
Hypothesis Hidx : 0 < idx < n0 - 1.
Variable path : list cutState.
Hypothesis ND : NoDup (map blockOf path).
Hypothesis InP : forall A a r, In (A, a, r) path -> exists b, blk mb0 A b /\ points b a = n0.
Hypothesis Lat : forall A a r s B s' o, In (A, a, r) path -> fst s <> a -> conn mb0 A s B s' o ->
  In (B, fst (o a), if snd (o a) then r else negb r) path.
Hypothesis Clear : forall A a r h s g q B a' r' h' s' g' b b',
    In (A, a, r) path -> In (B, a', r') path -> blk mb0 A b -> blk mb0 B b' ->
    fst s <> a -> fst s' <> a' -> fac mb0 A (faceNo s) g -> fac mb0 B (faceNo s') g' ->
    neighbor (topo g) <> None -> neighbor (topo g') <> None -> (A, h, s) <> (B, h', s') ->
    translated g (pieceCentre b a (cutAt n0 idx r) h s) q ->
    close q (pieceCentre b' a' (cutAt n0 idx r') h' s') ->
    exists o, conn mb0 A s B s' o /\ h' = (if snd (o a) then h else negb h).

Definition pieceNo (X : Z) (h : bool) : Z :=
  match posOf X path with Some (j, _, _) => if h then N + Z.of_nat j else X | None => X end.
Definition valid (X : Z) (h : bool) : Prop := (exists b, blk mb0 X b) /\ (posOf X path = None -> h = false).
Definition offs (X : Z) (h : bool) (c : axis) : Z :=
  match posOf X path with Some (_, a, r) => if axis_eqb c a && h then cutAt n0 idx r else 0 | None => 0 end.
Definition cnts (b0 : gblock) (X : Z) (h : bool) (c : axis) : Z :=
  match posOf X path with
  | Some (_, a, r) => if axis_eqb c a then (if h then points b0 c - cutAt n0 idx r else cutAt n0 idx r + 1) else points b0 c
  | None => points b0 c
  end.

Lemma posOf_path X j a r : posOf X path = Some (j, a, r) -> In (X, a, r) path.
Proof. intros H. apply posOf_nth in H. eapply nth_error_In; eauto. Qed.
Lemma path_posOf X a r : In (X, a, r) path -> exists j, posOf X path = Some (j, a, r).
Proof. apply posOf_in, ND. Qed.
Lemma path_fun X a r a' r' : In (X, a, r) path -> In (X, a', r') path -> a = a' /\ r = r'.
Proof. intros H H'. destruct (path_posOf _ _ _ H) as [j E]. destruct (path_posOf _ _ _ H') as [j' E']. split; congruence. Qed.
Lemma posOf_lt X j a r : posOf X path = Some (j, a, r) -> (j < length path)%nat.
Proof. intros H. apply posOf_nth in H. apply nth_error_Some. congruence. Qed.

Lemma pieceNo_inj X h Y h' : valid X h -> valid Y h' -> pieceNo X h = pieceNo Y h' -> X = Y /\ h = h'.
Proof.
  intros [[b Hb] V] [[b' Hb'] V']. apply blk_lt in Hb, Hb'. fold N in Hb, Hb'. unfold pieceNo.
  destruct (posOf X path) as [[[j a] r]|] eqn:Q, (posOf Y path) as [[[j' a'] r']|] eqn:Q'.
  - apply posOf_nth in Q, Q'. destruct h, h'; intros E; try (split; [lia|reflexivity]); try lia.
    assert (j = j') by lia. subst j'. pose proof (eq_trans (eq_sym Q) Q') as X0. injection X0 as <- <- <-. auto.
  - rewrite (V' eq_refl). destruct h; intros E; [lia|]. subst Y. congruence.
  - rewrite (V eq_refl). destruct h'; intros E; [lia|]. subst Y. congruence.
  - rewrite (V eq_refl), (V' eq_refl). auto.
Qed.

Variable mbc : list gblock.
Hypothesis V : Inv mb0 n0 idx path mbc.
Variable ff : table.
Hypothesis T : tableFor mb0 0 path ff.

(** Geometry of the pieces before the search. *)
Lemma piece_geo X h b0 : blk mb0 X b0 -> valid X h -> exists b, blk mbc (pieceNo X h) b /\
  (forall c, points b c = cnts b0 X h c) /\ forall p, node b p = node b0 (fun c => p c + offs X h c).
Proof.
  intros Hb [_ Va]. unfold pieceNo, cnts, offs. destruct (posOf X path) as [[[j a] r]|] eqn:Q.
  - destruct h.
    + apply posOf_nth in Q. destruct (i_geo_new _ _ _ _ _ V _ _ _ _ _ Q Hb) as (b & H1 & H2 & H3). exists b. split; [exact H1|]. split.
      * intros c. rewrite H3. destruct (axis_eqb_spec c a) as [->|Ne]; reflexivity.
      * intros p. rewrite H2. apply node_ext. intros c. unfold shift. rewrite andb_true_r. destruct (axis_eqb c a); lia.
    + destruct (i_geo_old _ _ _ _ _ V _ _ Hb) as (b & H1 & H2 & H3). rewrite Q in H3. exists b. split; [exact H1|]. split; [exact H3|].
      intros p. rewrite H2. apply node_ext. intros c. rewrite andb_false_r. lia.
  - destruct (i_geo_old _ _ _ _ _ V _ _ Hb) as (b & H1 & H2 & H3). rewrite Q in H3. exists b. split; [exact H1|]. split; [exact H3|].
    intros p. rewrite H2. apply node_ext. intros c. lia.
Qed.

Lemma valid_path A a r h : In (A, a, r) path -> valid A h.
Proof.
  intros H. split.
  - destruct (InP _ _ _ H) as (b & Hb & _). eauto.
  - intros E. destruct (path_posOf _ _ _ H). congruence.
Qed.

Lemma piece_centre A a r h b0 s b : In (A, a, r) path -> blk mb0 A b0 -> fst s <> a -> blk mbc (pieceNo A h) b ->
  centre b (faceNo s) = pieceCentre b0 a (cutAt n0 idx r) h s.
Proof.
  intros HA Hb0 Hs Hb. destruct (piece_geo A h b0 Hb0 (valid_path _ _ _ _ HA)) as (b1 & Hb1 & PT & NO).
  rewrite (blk_fun _ _ _ _ Hb Hb1). rewrite centre_cube, pieceCentre_cube. apply cube_ext. intros x y z. rewrite NO. apply node_ext.
  intros c. unfold corner, pieceCorner, pieceHi, pieceLo. rewrite PT. unfold cnts, offs. destruct (path_posOf _ _ _ HA) as [j ->].
  destruct (axis_eqb_spec c (fst s)) as [->|N1].
  - destruct (axis_eqb_spec (fst s) a) as [E|_]; [congruence|]. cbn [andb]. destruct (snd s); lia.
  - destruct (axis_eqb_spec c a) as [->|N2]; cbn [andb].
    + destruct h, (choice x y z a); lia.
    + destruct (choice x y z c); lia.
Qed.

(** Mates. *)
Definition Mate (p q : Z * Z) : Prop :=
  exists A a r h s B t o, In (A, a, r) path /\ fst s <> a /\ conn mb0 A s B t o /\
    p = (pieceNo A h, faceNo s) /\ q = (pieceNo B (if snd (o a) then h else negb h), faceNo t).

Lemma pend_iff p : pend ff p <-> exists A a r h s g0, In (A, a, r) path /\ p = (pieceNo A h, faceNo s) /\ fst s <> a /\
  fac mb0 A (faceNo s) g0 /\ neighbor (topo g0) <> None.
Proof.
  split.
  - intros (l & Il & Hk & El). destruct p as [X k]. cbn [fst snd] in *. destruct (face_of_no k Hk) as [s ->].
    destruct (table_in mb0 _ _ _ _ _ T Il) as (i & A & a & r & Q & D & [L FL]).
    assert (HA : In (A, a, r) path) by (eapply nth_error_In; eauto).
    assert (PA : posOf A path = Some (i, a, r)) by (apply nth_posOf; assumption).
    destruct (InP _ _ _ HA) as (b & Hb & _). destruct (fac_ex mb0 A b s W0 Hb) as [g0 F0]. specialize (FL s g0 F0).
    assert (NF : nth_error l (Z.to_nat (faceNo s - 1)) <> Some true).
    { intros E. rewrite (nth_error_nth _ _ _ E) in El. discriminate. }
    exists A, a, r, (if X =? A then false else true), s, g0. split; [exact HA|]. split.
    + f_equal. unfold pieceNo. rewrite PA. destruct (Z.eqb_spec X A) as [->|Ne]; [reflexivity|]. destruct D as [D|D]; [congruence|exact D].
    + split; [tauto|]. split; [exact F0|]. tauto.
  - intros (A & a & r & h & s & g0 & HA & -> & Hs & F0 & Nn). apply In_nth_error in HA as [i Q].
    destruct (table_has mb0 _ _ _ _ _ _ _ T Q) as (l & [L FL] & I1 & I2). specialize (FL s g0 F0).
    assert (PA : posOf A path = Some (i, a, r)) by (apply nth_posOf; assumption).
    exists l. cbn [fst snd]. split.
    + unfold pieceNo. rewrite PA. destruct h; [exact I2|exact I1].
    + split; [apply faceNo_range|]. pose proof (faceNo_range s).
      destruct (nth_error l (Z.to_nat (faceNo s - 1))) as [v|] eqn:E; [|apply nth_error_None in E; lia].
      rewrite (nth_error_nth _ _ _ E). destruct v; [|reflexivity]. exfalso. destruct (proj1 FL eq_refl); tauto.
Qed.

Lemma mate_back A a r s B t o o' : In (A, a, r) path -> fst s <> a -> conn mb0 A s B t o -> inverse o o' -> conn mb0 B t A s o' ->
  In (B, fst (o a), if snd (o a) then r else negb r) path /\ fst t <> fst (o a) /\ fst (o' (fst (o a))) = a /\ snd (o' (fst (o a))) = snd (o a).
Proof.
  intros HA Hs Cn Iv Cn'. split; [eapply Lat; eauto|]. destruct (inverse_axis _ _ a Iv) as [E1 E2]. split; [|auto].
  destruct Cn as (g & _ & _ & L & _ & ->). rewrite fst_flip_act. intros E. apply Hs. now apply L.
Qed.

Lemma M1 p q : Mate p q -> pend ff p /\ pend ff q /\ p <> q /\ Mate q p.
Proof.
  intros (A & a & r & h & s & B & t & o & HA & Hs & Cn & -> & ->).
  destruct (P0 _ _ _ _ _ Cn) as (Ne & o' & Iv & Cn').
  destruct (mate_back _ _ _ _ _ _ _ _ HA Hs Cn Iv Cn') as (HB & Ht & E1 & E2).
  split; [|split; [|split]].
  - apply pend_iff. destruct Cn as (g & Fg & Ng & _). exists A, a, r, h, s, g. repeat split; auto. congruence.
  - apply pend_iff. destruct Cn' as (g & Fg & Ng & _). eexists B, _, _, _, t, g. repeat split; eauto. congruence.
  - intros E. injection E as E3 E4. apply faceNo_inj in E4. apply pieceNo_inj in E3; [|eapply valid_path; eauto|eapply valid_path; eauto].
    destruct E3 as [E3 _]. congruence.
  - exists B, (fst (o a)), (if snd (o a) then r else negb r), (if snd (o a) then h else negb h), t, A, s, o'.
    repeat split; auto. rewrite E2. destruct (snd (o a)); [reflexivity|]. now rewrite negb_involutive.
Qed.
Lemma M2 p q q' : Mate p q -> Mate p q' -> q = q'.
Proof.
  intros (A & a & r & h & s & B & t & o & HA & Hs & Cn & -> & ->) (A' & a' & r' & h' & s' & B' & t' & o' & HA' & Hs' & Cn' & E & ->).
  injection E as E1 E2. apply faceNo_inj in E2. subst s'.
  apply pieceNo_inj in E1; [|eapply valid_path; eauto|eapply valid_path; eauto]. destruct E1 as [<- <-].
  destruct (path_fun _ _ _ _ _ HA HA') as [<- <-]. destruct (conn_fun _ _ _ _ _ _ _ _ _ Cn Cn') as (<- & <- & Eo). now rewrite Eo.
Qed.
Lemma M3 p : pend ff p -> exists q, Mate p q.
Proof.
  intros H. apply pend_iff in H as (A & a & r & h & s & g0 & HA & -> & Hs & F0 & Nn).
  destruct (neighbor (topo g0)) as [B|] eqn:NB; [|congruence]. destruct (closed_conn _ _ _ _ _ C0 F0 NB) as (t & o & Cn).
  exists (pieceNo B (if snd (o a) then h else negb h), faceNo t), A, a, r, h, s, B, t, o. auto 8.
Qed.

(** Joined lateral faces of pieces have near centres. *)
Lemma mate_close A a r h s B t o b b' g : In (A, a, r) path -> fst s <> a -> conn mb0 A s B t o ->
  blk mb0 A b -> blk mb0 B b' -> fac mb0 A (faceNo s) g ->
  exists q, translated g (pieceCentre b a (cutAt n0 idx r) h s) q /\
    close q (pieceCentre b' (fst (o a)) (cutAt n0 idx (if snd (o a) then r else negb r)) (if snd (o a) then h else negb h) t).
Proof.
  intros HA Hs Cn Hb Hb' Fg.
  destruct (good_coincident _ G0 _ _ _ _ _ _ _ _ Cn Hb Hb' Fg) as [PT CO].
  assert (HB := Lat _ _ _ _ _ _ _ HA Hs Cn).
  destruct (InP _ _ _ HA) as (b1 & Hb1 & Pb1). rewrite <- (blk_fun _ _ _ _ Hb Hb1) in Pb1. clear b1 Hb1.
  destruct (InP _ _ _ HB) as (b1 & Hb1 & Pb2). rewrite <- (blk_fun _ _ _ _ Hb' Hb1) in Pb2. clear b1 Hb1.
  assert (SZ := good_size _ G0 _ _ I Hb). assert (SZj := good_size _ G0 _ _ J Hb). assert (SZk := good_size _ G0 _ _ S_Topology.K Hb).
  assert (SZs : forall c, 2 <= points b c) by (intros []; assumption). clear SZ SZj SZk.
  assert (SZ := good_size _ G0 _ _ I Hb'). assert (SZj := good_size _ G0 _ _ J Hb'). assert (SZk := good_size _ G0 _ _ S_Topology.K Hb').
  assert (SZs' : forall c, 2 <= points b' c) by (intros []; assumption). clear SZ SZj SZk.
  destruct Cn as (g1 & Fg1 & _ & L & _ & Et). assert (Ft : fst t = fst (o (fst s))) by (rewrite Et; apply fst_flip_act).
  set (i := cutAt n0 idx r) in *. set (i' := cutAt n0 idx (if snd (o a) then r else negb r)).
  assert (Ei : i' = if snd (o a) then i else n0 - 1 - i).
  { unfold i', i, cutAt. destruct (snd (o a)), r; cbn [negb]; lia. }
  assert (Ri : 0 < i < n0 - 1) by (eapply cutAt_range; eauto).
  set (h' := if snd (o a) then h else negb h).
  assert (FP : forall e e', moveChoice o e e' -> onSide b s (pieceCorner b a i h s e) /\
     facing b b' s o (pieceCorner b a i h s e) (pieceCorner b' (fst (o a)) i' h' t e')).
  { intros e e' ME. split.
    - split.
      + intros c. pose proof (SZs c). unfold pieceCorner, pieceHi, pieceLo. destruct (axis_eqb c (fst s)); [destruct (snd s); lia|].
        destruct (axis_eqb_spec c a) as [->|_]; [rewrite Pb1|]; destruct (e _), h; lia.
      + unfold pieceCorner. rewrite axis_eqb_refl. reflexivity.
    - split.
      + rewrite <- Et. split.
        * intros c. pose proof (SZs' c). unfold pieceCorner, pieceHi, pieceLo. destruct (axis_eqb c (fst t)); [destruct (snd t); lia|].
          destruct (axis_eqb_spec c (fst (o a))) as [->|_]; [rewrite Pb2, Ei|]; destruct (e' _), h', (snd (o a)); lia.
        * unfold pieceCorner. rewrite axis_eqb_refl. reflexivity.
      + intros c Hc. unfold pieceCorner, pieceHi, pieceLo.
        destruct (axis_eqb_spec (fst (o c)) (fst t)) as [E|_]; [exfalso; apply Hc, L; congruence|].
        destruct (axis_eqb_spec c (fst s)) as [E|_]; [congruence|]. rewrite (ME c).
        destruct (axis_eqb_spec c a) as [->|Nc].
        * rewrite axis_eqb_refl, Pb1, Pb2. unfold h'. rewrite Ei. destruct (snd (o a)), (e a), h; cbn [negb]; lia.
        * destruct (axis_eqb_spec (fst (o c)) (fst (o a))) as [E|_]; [exfalso; apply Nc, L; exact E|]. rewrite (PT c Hc).
          destruct (snd (o c)), (e c); cbn [negb]; lia. }
  (* a choice carried over *)
  assert (EX : forall e, exists e', moveChoice o e e').
  { intros e. exists (fun d => let c := if axis_eqb (fst (o I)) d then I else if axis_eqb (fst (o J)) d then J else S_Topology.K in
       if snd (o c) then e c else negb (e c)).
    intros c. cbv zeta. assert (LIJ := L I J). assert (LIK := L I S_Topology.K). assert (LJK := L J S_Topology.K).
    destruct c; [now rewrite axis_eqb_refl| |].
    - destruct (axis_eqb_spec (fst (o I)) (fst (o J))) as [E|_]; [discriminate (LIJ E)|]. now rewrite axis_eqb_refl.
    - destruct (axis_eqb_spec (fst (o I)) (fst (o S_Topology.K))) as [E|_]; [discriminate (LIK E)|].
      destruct (axis_eqb_spec (fst (o J)) (fst (o S_Topology.K))) as [E|_]; [discriminate (LJK E)|reflexivity]. }
  destruct (EX (fun _ => true)) as [e0 M0]. destruct (FP _ _ M0) as [S0 F0]. destruct (CO _ _ S0 F0) as (q0 & TR0 & _).
  destruct (translated_vec _ _ _ TR0) as (v & TV & _ & _). exists (vecAdd (pieceCentre b a i h s) v). split; [now apply TV|].
  rewrite (pieceCentre_cube b), (pieceCentre_cube b'). rewrite <- cube_vecAdd.
  (* the pieces' corners, in the order of the first block *)
  set (F := fun e : axis -> bool => node b' (pieceCorner b' (fst (o a)) i' h' t e)).
  set (mv := fun (e : axis -> bool) (d : axis) => let c := if axis_eqb (fst (o I)) d then I else if axis_eqb (fst (o J)) d then J else S_Topology.K in
       if snd (o c) then e c else negb (e c)).
  assert (MV : forall e, moveChoice o e (mv e)).
  { intros e c. unfold mv. cbv zeta. assert (LIJ := L I J). assert (LIK := L I S_Topology.K). assert (LJK := L J S_Topology.K).
    destruct c; [now rewrite axis_eqb_refl| |].
    - destruct (axis_eqb_spec (fst (o I)) (fst (o J))) as [E|_]; [discriminate (LIJ E)|]. now rewrite axis_eqb_refl.
    - destruct (axis_eqb_spec (fst (o I)) (fst (o S_Topology.K))) as [E|_]; [discriminate (LIK E)|].
      destruct (axis_eqb_spec (fst (o J)) (fst (o S_Topology.K))) as [E|_]; [discriminate (LJK E)|reflexivity]. }
  assert (FX : forall e e', (forall c, e c = e' c) -> F e = F e').
  { intros e e' H. unfold F. apply node_ext. intros c. unfold pieceCorner. rewrite H. reflexivity. }
  change (cube (fun x y z => node b' (pieceCorner b' (fst (o a)) i' h' t (choice x y z)))) with (cube (fun x y z => F (choice x y z))).
  rewrite <- (cube_perm o F (fun x y z => F (mv (choice x y z))) L FX).
  2:{ intros x y z e' ME. apply FX.
      intros d. assert (SJ : exists c, fst (o c) = d).
      { assert (LIJ := L I J). assert (LIK := L I S_Topology.K). assert (LJK := L J S_Topology.K).
        destruct (axis_dec (fst (o I)) d) as [E|E1]; [eauto|]. destruct (axis_dec (fst (o J)) d) as [E|E2]; [eauto|].
        destruct (axis_dec (fst (o S_Topology.K)) d) as [E|E3]; [eauto|]. exfalso.
        destruct (fst (o I)), (fst (o J)), (fst (o S_Topology.K)), d; try congruence;
          try (discriminate (LIJ eq_refl)); try (discriminate (LIK eq_refl)); try (discriminate (LJK eq_refl)). }
      destruct SJ as [c <-]. rewrite (MV (choice x y z) c), (ME c). reflexivity. }
  apply close_cube. intros x y z. destruct (FP _ _ (MV (choice x y z))) as [S1 F1]. destruct (CO _ _ S1 F1) as (q1 & TR1 & CL).
  apply TV in TR1. rewrite <- TR1. exact CL.
Qed.

Lemma Near X k : pend ff (X, k) -> exists g gb c, fac mbc X k g /\ blk mbc X gb /\
  (bcType (topo g) = "b0"%string \/ isPeriodic (bcType (topo g)) = true) /\ moved g (centre gb k) = Some c /\
  forall Y k' b', pend ff (Y, k') -> (Y, k') <> (X, k) -> blk mbc Y b' -> (isNear c (centre b' k') = true <-> Mate (X, k) (Y, k')).
Proof.
  intros H. apply pend_iff in H as (A & a & r & h & s & g0 & HA & E & Hs & F0 & Nn). injection E as -> ->.
  destruct (InP _ _ _ HA) as (b0 & Hb0 & _). destruct (piece_geo A h b0 Hb0 (valid_path _ _ _ _ HA)) as (gb & Hgb & _).
  destruct (fac_ex mbc (pieceNo A h) gb s (i_wf _ _ _ _ _ V) Hgb) as [g Fg].
  assert (SC : sameCondition g g0).
  { destruct (path_posOf _ _ _ HA) as [j Q]. unfold pieceNo in Fg. rewrite Q in Fg. destruct h.
    - apply posOf_nth in Q. destruct (i_face_new _ _ _ _ _ V _ _ _ _ _ _ Q F0) as (g' & F' & O). rewrite (fac_fun _ _ _ _ _ Fg F').
      unfold newFace in O. destruct (saxis_dec s (a, false)) as [->|_]; [cbn in Hs; congruence|].
      destruct (saxis_dec s (a, true)) as [->|_]; [cbn in Hs; congruence|]. apply O.
    - destruct (i_face_old _ _ _ _ _ V _ _ _ F0) as (g' & F' & O). rewrite (fac_fun _ _ _ _ _ Fg F').
      unfold oldFace in O. rewrite Q in O. destruct (saxis_dec s (a, true)) as [->|_]; [cbn in Hs; congruence|]. apply O. }
  destruct (neighbor (topo g0)) as [B|] eqn:NB; [|congruence]. destruct (closed_conn _ _ _ _ _ C0 F0 NB) as (t & o & Cn).
  destruct (InP _ _ _ (Lat _ _ _ _ _ _ _ HA Hs Cn)) as (bB & HbB & _).
  destruct (mate_close A a r h s B t o b0 bB g0 HA Hs Cn Hb0 HbB F0) as (q & TR & CL).
  rewrite <- (piece_centre A a r h b0 s gb HA Hb0 Hs Hgb) in TR.
  destruct (translated_vec _ _ _ (translated_same _ _ _ _ SC TR)) as (v & TV & TY & MV).
  assert (Eq : q = vecAdd (centre gb (faceNo s)) v) by (apply TV; eapply translated_same; eauto).
  exists g, gb, q. split; [exact Fg|]. split; [exact Hgb|]. split; [exact TY|]. split; [rewrite MV, Eq; reflexivity|].
  intros Y k' b' PY Ne Hb'. rewrite isNear_close. apply pend_iff in PY as (B' & a' & r' & h' & s' & g' & HB' & E & Hs' & F' & Nn').
  injection E as -> ->. destruct (InP _ _ _ HB') as (bB' & HbB' & _). rewrite (piece_centre B' a' r' h' bB' s' b' HB' HbB' Hs' Hb').
  split.
  - intros CL'.
    assert (NE2 : (A, h, s) <> (B', h', s')) by (intros E; apply Ne; injection E as <- <- <-; reflexivity).
    destruct (Clear A a r h s g0 q B' a' r' h' s' g' b0 bB' HA HB' Hb0 HbB' Hs Hs' F0 F') as (o' & Cn' & Eh);
      [congruence|exact Nn'|exact NE2|rewrite <- (piece_centre A a r h b0 s gb HA Hb0 Hs Hgb); exact TR|exact CL'|].
    exists A, a, r, h, s, B', s', o'. rewrite Eh. auto 8.
  - intros (A1 & a1 & r1 & h1 & s1 & B1 & t1 & o1 & HA1 & Hs1 & Cn1 & E1 & E2).
    injection E1 as E1 E3. apply faceNo_inj in E3. subst s1. apply pieceNo_inj in E1; [|eapply valid_path; eauto|eapply valid_path; eauto].
    destruct E1 as [<- <-]. destruct (path_fun _ _ _ _ _ HA HA1) as [<- <-]. destruct (conn_fun _ _ _ _ _ _ _ _ _ Cn Cn1) as (<- & <- & Eo).
    injection E2 as E2 E4. apply faceNo_inj in E4. subst s'.
    assert (HB := Lat _ _ _ _ _ _ _ HA Hs Cn).
    apply pieceNo_inj in E2; [|eapply valid_path; eauto|eapply valid_path; eauto]. destruct E2 as [-> E2].
    destruct (path_fun _ _ _ _ _ HB HB') as [<- <-]. rewrite <- Eo in E2. rewrite E2. rewrite (blk_fun _ _ _ _ HbB' HbB). exact CL.
Qed.
End Final.
