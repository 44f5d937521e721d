(** Property C76: cutting a block.  Vocabulary: S_Cut.  Model: M_Cut. *)
From Coq Require Import ZArith String Ascii List Bool Lia Reals Lra.
From Verif Require Import M_Topology S_Topology L_Topology P_Topology M_Cut S_Cut L_Cut L_Cut2.
Import ListNotations.
Open Scope Z_scope.

Local Opaque updFace faceOf relink foundFlags.

Lemma keepLow_points a cnt idx b c : 0 <= idx < cnt -> points (keepLow (letter a) cnt idx b) c = if axis_eqb c a then idx + 1 else points b c.
Proof.
  intros H. unfold points, keepLow. cbn [gshape]. destruct (gshape b) as [[x y] z].
  assert (E : sliceStop cnt (idx + 1) = idx + 1).
  { unfold sliceStop. replace (idx + 1 <? 0) with false by (symmetry; lia). lia. }
  rewrite E. destruct a, c; reflexivity.
Qed.
Lemma keepLow_node a cnt idx b p : node (keepLow (letter a) cnt idx b) p = node b p.
Proof. reflexivity. Qed.
Lemma takeHigh_points a cnt idx src b c : 0 <= idx < cnt ->
  points (takeHigh (letter a) cnt idx src b) c = if axis_eqb c a then cnt - idx else points src c.
Proof.
  intros H. unfold points, takeHigh. cbn [gshape]. destruct (gshape src) as [[x y] z].
  assert (E : sliceStart cnt idx = idx).
  { unfold sliceStart. replace (idx <? 0) with false by (symmetry; lia). lia. }
  rewrite E. destruct a, c; reflexivity.
Qed.
Lemma takeHigh_node a cnt idx src b p : 0 <= idx < cnt ->
  node (takeHigh (letter a) cnt idx src b) p = node src (shift a idx p).
Proof.
  intros H. assert (E : sliceStart cnt idx = idx).
  { unfold sliceStart. replace (idx <? 0) with false by (symmetry; lia). lia. }
  unfold node, takeHigh, sliceHigh. cbn [gx gy gz]. rewrite E.
  destruct a; cbn [letter String.eqb Ascii.eqb]; cbn; unfold shift; cbn; rewrite (Z.add_comm idx); reflexivity.
Qed.

Lemma ob_points far a m A b k f c : points (updFace k f (relink far a m A b)) c = points b c.
Proof. unfold points. rewrite updFace_shape, relink_shape. reflexivity. Qed.

Lemma relink_face far a m A b k g : faceNums b = [1;2;3;4;5;6] -> 1 <= k <= 6 -> faceOf b k = Some g ->
  ~ endsOn far (a, true) A k ->
  (forall B, neighbor (topo far) = Some B -> exists o, legal o /\ orientation (topo far) = Some (show o)) ->
  faceOf (relink far a m A b) k = Some g.
Proof.
  Local Transparent relink. intros Nn K E X C. unfold relink.
  destruct (neighbor (topo far)) as [B|] eqn:EB; [|exact E].
  destruct (C B eq_refl) as (o & Lo & Eo). rewrite Eo.
  destruct (c02 o (HI a) (a, true) Lo (outward_faceNo _)) as (nf & Enf & Rnf & Onf & _). rewrite Enf.
  destruct (Z.eqb_spec A B) as [->|Q]; [|exact E].
  rewrite faceOf_updFace; [|auto|auto|now apply nums_len].
  destruct (Z.eqb_spec k nf) as [->|Q]; [|exact E].
  exfalso. apply X. split; [exact EB|]. exists o. auto.
Qed.

Lemma relink_face_end far a m A b k g : faceNums b = [1;2;3;4;5;6] -> 1 <= k <= 6 -> faceOf b k = Some g ->
  endsOn far (a, true) A k -> faceOf (relink far a m A b) k = Some (withNeighbor (Some m) g).
Proof.
  intros Nn K E (EB & o & Lo & Eo & Ok). unfold relink. rewrite EB, Eo.
  destruct (c02 o (HI a) (a, true) Lo (outward_faceNo _)) as (nf & Enf & Rnf & Onf & _). rewrite Enf, Z.eqb_refl.
  assert (k = nf) by (rewrite (outward_inj _ _ Ok), (outward_inj _ _ Onf); reflexivity). subst nf.
  rewrite faceOf_updFace; [|auto|auto|now apply nums_len]. now rewrite Z.eqb_refl, E.
Qed.
Local Opaque relink.

(** C76.  Cutting block [n] of any well-formed grid along any axis at any index strictly inside
    succeeds; [lo] (the old block) and [hi] (the appended block) together hold the old points,
    overlapping in exactly the plane [idx]; they are connected to each other there; the far face
    moves to [hi] together with its condition; the neighbour beyond it now points to [hi]; every
    other face of every old block is untouched; the lateral faces of [hi] repeat the conditions of
    the old block; and the search for lateral neighbours is told exactly which faces are open. *)
Theorem C76_cut_block : forall mb n old a idx far,
  wfGrid mb -> closed mb -> blk mb n old -> 0 < idx < points old a - 1 ->
  (forall k g, fac mb n k g -> periodicReady g) -> fac mb n (faceNo (a, true)) far ->
  let m := Z.of_nat (length mb) in
  exists mb' ff lo hi, cutBlock mb n (letter a) idx = Some (mb', ff) /\
    length mb' = S (length mb) /\ wfGrid mb' /\ blk mb' n lo /\ blk mb' m hi /\
    (* geometry *)
    (forall c, points lo c = if axis_eqb c a then idx + 1 else points old c) /\
    (forall c, points hi c = if axis_eqb c a then points old a - idx else points old c) /\
    (forall p, node lo p = node old p) /\
    (forall p, node hi p = node old (shift a idx p)) /\
    (forall A b, A <> n -> blk mb A b -> exists b', blk mb' A b' /\
       (forall c, points b' c = points b c) /\ forall p, node b' p = node b p) /\
    (* connections *)
    (exists g, fac mb' n (faceNo (a, true)) g /\ interiorTo m g) /\
    (exists g, fac mb' m (faceNo (a, false)) g /\ interiorTo n g) /\
    (exists g, fac mb' m (faceNo (a, true)) g /\ sameCondition g far /\
               neighbor (topo g) = neighbor (topo far)) /\
    (forall B k g, endsOn far (a, true) B k -> (B, k) <> (n, faceNo (a, true)) -> fac mb B k g ->
       exists g', fac mb' B k g' /\ neighbor (topo g') = Some m /\ sameCondition g' g) /\
    (forall A k g, fac mb A k g -> (A, k) <> (n, faceNo (a, true)) -> ~ endsOn far (a, true) A k ->
       fac mb' A k g) /\
    (forall k g, fac mb n k g -> k <> faceNo (a, true) -> k <> faceNo (a, false) ->
       exists h, fac mb' m k h /\ sameCondition h g /\ neighbor (topo h) = None) /\
    (* what is left to resolve *)
    (exists flags, ff = [(n, flags); (m, flags)] /\ length flags = 6%nat /\
       ((forall k g, endsOn far (a, true) n k -> fac mb n k g -> neighbor (topo g) <> None) ->
        forall k g, fac mb n k g ->
         nth_error flags (Z.to_nat (k - 1)) = Some true <->
          k = faceNo (a, true) \/ k = faceNo (a, false) \/ neighbor (topo g) = None)).
Proof.
  intros mb n old a idx far W C Hn Hi P Ff m.
  apply fac_faceOf in Ff as (old' & Hn' & Ef). rewrite <- (blk_fun _ _ _ _ Hn Hn') in *. clear old' Hn'.
  destruct (cut_shape mb n old a idx far W C Hn ltac:(lia) P Ef) as
    (mb' & nb' & dst & E & L & B & M & Gm & Nm & Sd & Nd & FH & FL & FS). fold m in E, B, M, Gm, FH, FL.
  set (ob := updFace (HI a) (asInterior m) (relink far a m n old)) in *.
  pose proof (blk_lt _ _ _ Hn) as Ln. fold m in Ln. destruct (W _ _ Hn) as [Gn Nn].
  assert (RH : 1 <= HI a <= 6) by apply faceNo_range. assert (RL : 1 <= LO a <= 6) by apply faceNo_range.
  assert (HL : HI a <> LO a) by (destruct a; discriminate).
  assert (CF : forall B, neighbor (topo far) = Some B -> exists o, legal o /\ orientation (topo far) = Some (show o)).
  { intros X HX. apply (C n (HI a) far X); [apply fac_faceOf; eauto|exact HX]. }
  assert (No : faceNums ob = [1;2;3;4;5;6]).
  { unfold ob. rewrite updFace_nums; [rewrite relink_nums; exact Nn|auto|reflexivity]. }
  assert (W' : wfGrid mb').
  { intros A b H. pose proof (blk_lt _ _ _ H) as LA. rewrite L in LA.
    assert (A < m \/ A = m) as [Y|Y] by lia.
    - destruct (blk_ex mb A ltac:(lia)) as [c Hc]. pose proof (B _ _ Hc) as Q. rewrite (blk_fun _ _ _ _ H Q).
      destruct (W _ _ Hc) as [G1 G2]. destruct (Z.eqb_spec A n) as [->|NA].
      + split; [cbn [keepLow gn]; unfold ob; rewrite updFace_gn, relink_gn; exact Gn|exact No].
      + split; [now rewrite relink_gn|]. change (faceNums (relink far a m A c) = [1;2;3;4;5;6]). now rewrite relink_nums.
    - subst A. rewrite (blk_fun _ _ _ _ H M). split; [exact Gm|exact Nm]. }
  pose proof (B _ _ Hn) as Hlo. rewrite Z.eqb_refl in Hlo.
  eexists mb', _, _, _. split; [exact E|]. split; [exact L|]. split; [exact W'|]. split; [exact Hlo|]. split; [exact M|].
  split. { intros c. rewrite keepLow_points by lia. destruct (axis_eqb c a); [reflexivity|]. apply ob_points. }
  split. { intros c. rewrite takeHigh_points by lia. destruct (axis_eqb c a); [reflexivity|]. apply ob_points. }
  split. { intros p. rewrite keepLow_node. unfold ob. rewrite updFace_node, relink_node. reflexivity. }
  split. { intros p. rewrite takeHigh_node by lia. unfold ob. rewrite updFace_node, relink_node. reflexivity. }
  split. { intros A b NA Hb. pose proof (B _ _ Hb) as Q. replace (A =? n) with false in Q by (symmetry; now apply Z.eqb_neq).
    eexists. split; [exact Q|]. split; intros; [unfold points; now rewrite relink_shape|now rewrite relink_node]. }
  assert (FO : forall k, 1 <= k <= 6 -> faceOf (keepLow (letter a) (points old a) idx ob) k = faceOf ob k) by reflexivity.
  assert (FT : forall k, 1 <= k <= 6 -> faceOf (takeHigh (letter a) (points old a) idx ob nb') k = faceOf nb' k) by reflexivity.
  assert (FR : exists g, faceOf (relink far a m n old) (HI a) = Some g /\ nface (topo g) = HI a).
  { destruct (faceOf_ex (relink far a m n old) (HI a) RH) as [g Eg]; [apply nums_len; rewrite relink_nums; exact Nn|].
    exists g. split; [exact Eg|]. eapply face_num; [|exact Eg]. rewrite relink_nums. exact Nn. }
  split.
  { destruct FR as (g & Eg & _). exists (asInterior m g). split.
    - apply fac_faceOf. eexists. split; [exact Hlo|]. fold (HI a). rewrite FO by auto. unfold ob.
      rewrite faceOf_updFace; [|auto|auto|apply nums_len; rewrite relink_nums; exact Nn]. now rewrite Z.eqb_refl, Eg.
    - repeat split. }
  split.
  { eexists. split; [apply fac_faceOf; eexists; split; [exact M|]; fold (LO a); rewrite FT by auto; exact FL|]. repeat split. }
  split.
  { exists dst. split; [apply fac_faceOf; eexists; split; [exact M|]; fold (HI a); rewrite FT by auto; exact FH|]. auto. }
  split.
  { intros B0 k g EO NE HF. apply fac_faceOf in HF as (b & Hb & Eg).
    assert (K : 1 <= k <= 6).
    { destruct EO as (_ & o & _ & _ & O). rewrite (outward_inj _ _ O). apply faceNo_range. }
    destruct (W _ _ Hb) as [_ Nb]. exists (withNeighbor (Some m) g). split; [|split; [reflexivity|repeat split; auto]].
    apply fac_faceOf. pose proof (B _ _ Hb) as Q. eexists. split; [exact Q|].
    destruct (Z.eqb_spec B0 n) as [->|X].
    - rewrite FO by auto. unfold ob. rewrite faceOf_updFace; [|auto|auto|apply nums_len; rewrite relink_nums; exact Nn].
      replace (k =? HI a) with false by (symmetry; apply Z.eqb_neq; intros ->; now apply NE).
      rewrite (blk_fun _ _ _ _ Hb Hn) in *. now apply relink_face_end.
    - now apply relink_face_end. }
  split.
  { intros A k g HF NE NO. pose proof HF as HF'. apply fac_faceOf in HF as (b & Hb & Eg).
    assert (K : 1 <= k <= 6) by (destruct HF' as (? & _ & K & _); exact K).
    destruct (W _ _ Hb) as [_ Nb]. apply fac_faceOf. pose proof (B _ _ Hb) as Q. eexists. split; [exact Q|].
    destruct (Z.eqb_spec A n) as [->|X].
    - rewrite FO by auto. unfold ob. rewrite faceOf_updFace; [|auto|auto|apply nums_len; rewrite relink_nums; exact Nn].
      replace (k =? HI a) with false by (symmetry; apply Z.eqb_neq; intros ->; now apply NE).
      rewrite (blk_fun _ _ _ _ Hb Hn) in *. now apply relink_face.
    - now apply relink_face. }
  split.
  { intros k g HF K2 K3. pose proof HF as HF'. apply fac_faceOf in HF as (b & Hb & Eg).
    assert (K : 1 <= k <= 6) by (destruct HF' as (? & _ & K & _); exact K).
    rewrite (blk_fun _ _ _ _ Hb Hn) in *. destruct (FS k g K K2 K3 Eg) as (h & Eh & Sh & Nh).
    exists h. split; [|auto]. apply fac_faceOf. eexists. split; [exact M|]. now rewrite FT. }
  exists (foundFlags (HI a) (LO a) ob). split; [reflexivity|]. split; [reflexivity|].
  intros Rec k g HF. pose proof HF as HF'. apply fac_faceOf in HF as (b & Hb & Eg).
  assert (K : 1 <= k <= 6) by (destruct HF' as (? & _ & K & _); exact K).
  rewrite (blk_fun _ _ _ _ Hb Hn) in *.
  assert (FF : nth_error (foundFlags (HI a) (LO a) ob) (Z.to_nat (k - 1)) =
    Some ((k =? HI a) || (k =? LO a) ||
            match faceOf ob k with
            | Some g => match neighbor (topo g) with None => true | Some _ => false end
            | None => false
            end)).
  { Local Transparent foundFlags. unfold foundFlags.
    assert (D : k = 1 \/ k = 2 \/ k = 3 \/ k = 4 \/ k = 5 \/ k = 6) by lia.
    destruct D as [->|[->|[->|[->|[->| ->]]]]]; reflexivity. }
  rewrite FF. clear FF. fold (HI a). fold (LO a).
  destruct (Z.eqb_spec k (HI a)) as [->|N1]; [cbn [orb]; split; auto|].
  destruct (Z.eqb_spec k (LO a)) as [->|N2]; [cbn [orb]; split; auto|].
  cbn [orb]. unfold ob. rewrite faceOf_updFace; [|auto|auto|apply nums_len; rewrite relink_nums; exact Nn].
  replace (k =? HI a) with false by (symmetry; now apply Z.eqb_neq).
  assert (Dec : endsOn far (a, true) n k \/ ~ endsOn far (a, true) n k).
  { unfold endsOn. destruct (neighbor (topo far)) as [B0|]; [|right; intros [? _]; discriminate].
    destruct (Z.eq_dec B0 n) as [->|X]; [|right; intros [? _]; congruence].
    destruct (CF n eq_refl) as (o & Lo & Eo). destruct (Z.eq_dec k (faceNo (S_Topology.flip (act o (a, true))))) as [->|X].
    - left. split; [reflexivity|]. exists o. split; [auto|]. split; [auto|]. apply outward_faceNo.
    - right. intros (_ & o' & Lo' & Eo' & O'). apply X. rewrite Eo in Eo'.
      assert (S : show o = show o') by congruence. rewrite (outward_inj _ _ O').
      assert (OO : forall c, o c = o' c).
      { unfold show in S. injection S as S1 S2 S3. 
        assert (T : forall u v, digit_char (saxis_digit u) = digit_char (saxis_digit v) -> u = v).
        { intros [[] []] [[] []] Q; try reflexivity; discriminate Q. }
        intros []; auto. }
      unfold act. cbn [fst snd]. now rewrite OO. }
  destruct Dec as [Y|Y].
  - rewrite (relink_face_end _ _ _ _ _ _ _ Nn K Eg Y). cbn [withNeighbor topo neighbor].
    split; [discriminate|]. intros [?|[?|X]]; try contradiction.
    (* a face that ends on itself is connected *)
    exfalso. exact (Rec k g Y HF' X).
  - rewrite (relink_face _ _ _ _ _ _ _ Nn K Eg Y CF). destruct (neighbor (topo g)).
    + split; [discriminate|]. intros [?|[?|?]]; [contradiction|contradiction|discriminate].
    + split; auto.
Qed.

(** C76, cells.  No cell is lost, duplicated or deformed: cells below the cut index stay in the low
    part with their corners, the others move to the high part with theirs, and the counts add up. *)
Theorem C76_cells_partition : forall mb n old a idx far,
  wfGrid mb -> closed mb -> blk mb n old -> 0 < idx < points old a - 1 ->
  (forall k g, fac mb n k g -> periodicReady g) -> fac mb n (faceNo (a, true)) far ->
  exists mb' ff lo hi, cutBlock mb n (letter a) idx = Some (mb', ff) /\
    blk mb' n lo /\ blk mb' (Z.of_nat (length mb)) hi /\
    cellCount lo + cellCount hi = cellCount old /\
    (forall c, isCell old c -> c a < idx -> sameCell old c lo c) /\
    (forall c, isCell old c -> idx <= c a -> sameCell old c hi (shift a (- idx) c)) /\
    (forall c, isCell lo c -> sameCell lo c old c /\ c a < idx) /\
    (forall c, isCell hi c -> sameCell hi c old (shift a idx c) /\ idx <= shift a idx c a).
Proof.
  intros mb n old a idx far W C Hn Hi P Ff.
  destruct (C76_cut_block mb n old a idx far W C Hn Hi P Ff) as
    (mb' & ff & lo & hi & E & _ & _ & Hlo & Hhi & PL & PH & NL & NH & _).
  exists mb', ff, lo, hi. split; [exact E|]. split; [exact Hlo|]. split; [exact Hhi|].
  assert (Ax : forall c, axis_eqb c a = true <-> c = a) by (intros c; destruct a, c; cbn; split; congruence).
  assert (Refl : axis_eqb a a = true) by (destruct a; reflexivity).
  split; [|split; [|split; [|split]]].
  - unfold cellCount. rewrite !PL, !PH. destruct a; cbn [axis_eqb]; ring.
  - intros c Hc L. split; [exact Hc|]. split.
    + intros x. specialize (Hc x). rewrite PL. destruct (axis_eqb x a) eqn:Q; [|exact Hc]. apply Ax in Q. subst x. lia.
    + intros e. now rewrite NL.
  - intros c Hc L. split; [exact Hc|]. split.
    + intros x. specialize (Hc x). rewrite PH. unfold shift. destruct (axis_eqb x a) eqn:Q; [|exact Hc]. apply Ax in Q. subst x. lia.
    + intros e. rewrite NH. assert (V : forall x, corner c e x = shift a idx (corner (shift a (- idx) c) e) x).
      { intros x. unfold corner, shift. destruct (axis_eqb x a), (e x); lia. }
      unfold node. now rewrite !V.
  - intros c Hc. assert (Q : c a < idx) by (specialize (Hc a); rewrite PL, Refl in Hc; lia).
    split; [|exact Q]. split; [exact Hc|]. split.
    + intros x. specialize (Hc x). rewrite PL in Hc. destruct (axis_eqb x a) eqn:Q'; [|exact Hc]. apply Ax in Q'. subst x. lia.
    + intros e. now rewrite NL.
  - intros c Hc. split.
    + split; [exact Hc|]. split.
      * intros x. specialize (Hc x). rewrite PH in Hc. unfold shift. destruct (axis_eqb x a) eqn:Q'; [|exact Hc]. apply Ax in Q'. subst x. lia.
      * intros e. rewrite NH. assert (V : forall x, shift a idx (corner c e) x = corner (shift a idx c) e x).
        { intros x. unfold corner, shift. destruct (axis_eqb x a), (e x); lia. }
        unfold node. now rewrite !V.
    + unfold shift. rewrite Refl. specialize (Hc a). lia.
Qed.

(** A concrete grid meeting the hypotheses: block 0 (5 x 3 x 2 points) joined in +i to block 1,
    whose -j face it touches, turned ("261": i->j, j->-k, k->i). *)
Definition exFace (n : Z) (nb : option (Z * string)) : gface :=
  match nb with
  | Some (B, o) => mkGF (mkFace n None "b0" (Some B) (Some o)) None None
  | None => mkGF (mkFace n None "adiabaticSlipWall" None None) None None
  end.
Definition exMb : list gblock :=
  [ mkGB 0 (5, 3, 2) (fun i _ _ => IZR i) (fun _ j _ => IZR j) (fun _ _ k => IZR k)
      (map (fun n => exFace n (if n =? 2 then Some (1, "261"%string) else None)) [1;2;3;4;5;6]);
    mkGB 1 (2, 4, 3) (fun i j k => IZR (4 + j)) (fun i j k => IZR (2 - k)) (fun i j k => IZR i)
      (map (fun n => exFace n (if n =? 3 then Some (0, "315"%string) else None)) [1;2;3;4;5;6]) ].

Lemma exMb_blk n b : blk exMb n b -> (n = 0 /\ Some b = nth_error exMb 0) \/ (n = 1 /\ Some b = nth_error exMb 1).
Proof.
  intros H. pose proof (blk_lt _ _ _ H) as L. cbn in L. destruct H as [_ E].
  assert (n = 0 \/ n = 1) as [->| ->] by lia; rewrite <- E; auto.
Qed.

Lemma exMb_face n k g : fac exMb n k g ->
  (n = 0 /\ k = 2 /\ g = exFace 2 (Some (1, "261"%string))) \/ (n = 1 /\ k = 3 /\ g = exFace 3 (Some (0, "315"%string))) \/
  (g = exFace k None).
Proof.
  intros (b & B & K & E).
  assert (D : k = 1 \/ k = 2 \/ k = 3 \/ k = 4 \/ k = 5 \/ k = 6) by lia.
  apply exMb_blk in B as [[-> B]|[-> B]]; cbn in B; injection B as ->;
  destruct D as [->|[->|[->|[->|[->| ->]]]]]; cbn in E; injection E as <-; auto.
Qed.

Example C76_nonvacuous : wfGrid exMb /\ closed exMb /\ reciprocal exMb /\
  (exists old, blk exMb 0 old /\ 0 < 2 < points old I - 1) /\
  (forall k g, fac exMb 0 k g -> periodicReady g) /\
  fac exMb 0 2 (exFace 2 (Some (1, "261"%string))) /\
  endsOn (exFace 2 (Some (1, "261"%string))) (I, true) 1 3.
Proof.
  assert (L1 : legal (fun a => match a with I => (J,true) | J => (K,false) | K => (I,true) end)) by (intros [] []; cbn; congruence).
  assert (L2 : legal (fun a => match a with I => (K,true) | J => (I,true) | K => (J,false) end)) by (intros [] []; cbn; congruence).
  split; [|split; [|split; [|split; [|split; [|split]]]]].
  - intros n b H. apply exMb_blk in H as [[-> H]|[-> H]]; cbn in H; injection H as ->; split; reflexivity.
  - intros A k g B H E. apply exMb_face in H as [(-> & -> & ->)|[(-> & -> & ->)| ->]]; cbn in E; try discriminate E;
    injection E as <-; (split; [apply blk_ex; cbn; lia|]).
    + eexists; split; [exact L1|reflexivity].
    + eexists; split; [exact L2|reflexivity].
  - intros A s g B k H (E & o & Lo & Eo & Ok).
    assert (SI : forall o o', show o = show o' -> forall c, o c = o' c).
    { intros u v S. unfold show in S. injection S as S1 S2 S3.
      assert (T : forall u v, digit_char (saxis_digit u) = digit_char (saxis_digit v) -> u = v).
      { intros [[] []] [[] []] Q; try reflexivity; discriminate Q. }
      intros []; auto. }
    apply exMb_face in H as [(-> & X & ->)|[(-> & X & ->)| ->]]; cbn in E; try discriminate E; injection E as <-.
    + assert (s = (I, true)) by (destruct s as [[] []]; cbn in X; congruence). subst s.
      assert (S : show (fun a => match a with I => (J,true) | J => (K,false) | K => (I,true) end) = show o)
        by (change (Some "261"%string = Some (show o)) in Eo; transitivity "261"%string; [reflexivity|congruence]).
      pose proof (SI _ _ S I) as Q. cbn in Q. unfold act in Ok. cbn in Ok. rewrite <- Q in Ok. cbn in Ok.
      rewrite (outward_inj _ _ Ok). exists (exFace 3 (Some (0, "315"%string))). split; [|reflexivity].
      eexists. split; [split; [lia|reflexivity]|]. split; [cbn; lia|reflexivity].
    + assert (s = (J, false)) by (destruct s as [[] []]; cbn in X; congruence). subst s.
      assert (S : show (fun a => match a with I => (K,true) | J => (I,true) | K => (J,false) end) = show o)
        by (change (Some "315"%string = Some (show o)) in Eo; transitivity "315"%string; [reflexivity|congruence]).
      pose proof (SI _ _ S J) as Q. cbn in Q. unfold act in Ok. cbn in Ok. rewrite <- Q in Ok. cbn in Ok.
      rewrite (outward_inj _ _ Ok). exists (exFace 2 (Some (1, "261"%string))). split; [|reflexivity].
      eexists. split; [split; [lia|reflexivity]|]. split; [cbn; lia|reflexivity].
  - eexists. split; [split; [lia|reflexivity]|]. cbn. lia.
  - intros k g H Q. exfalso. apply exMb_face in H as [(_ & _ & ->)|[(_ & _ & ->)| ->]]; discriminate Q.
  - eexists. split; [split; [lia|reflexivity]|]. split; [lia|reflexivity].
  - split; [reflexivity|]. eexists. split; [exact L1|]. split; reflexivity.
Qed.

(** What fails: "any index".  Only the upper bound is checked; index 0 leaves a low part without
    cells, index -1 one without points. *)
Theorem C76_low_index_refuted :
  (exists mb' ff lo, cutBlock exMb 0 "i" 0 = Some (mb', ff) /\ blk mb' 0 lo /\ cellCount lo = 0) /\
  (exists mb' ff lo, cutBlock exMb 0 "i" (-1) = Some (mb', ff) /\ blk mb' 0 lo /\ points lo I = 0).
Proof.
  split; eexists _, _, _; (split; [reflexivity|]); (split; [split; [lia|reflexivity]|reflexivity]).
Qed.

(** An index at or beyond the last point is rejected. *)
Theorem C76_high_index_rejected : forall mb n old a idx, wfGrid mb -> blk mb n old ->
  points old a - 1 <= idx -> cutBlock mb n (letter a) idx = None.
Proof.
  intros mb n old a idx W Hn H. unfold cutBlock. rewrite (getBlk_blk _ _ _ W Hn), count_letter, cutFaces_letter.
  replace (idx <? points old a - 1) with false by (symmetry; lia). reflexivity.
Qed.

(** Repeated cuts: [nCuts] cuts of a block with [nx] points are all strictly inside - for the
    block itself and for blocks cut in the reversed sense - exactly when there are more than
    [nCuts] cells; otherwise the first cut is refused, before anything has been changed.  The
    pieces differ by at most two cells. *)
Lemma cutIndex_step nx nc c : 0 < nc + 1 -> 0 <= nx -> 
  nx / (nc + 1) <= cutIndex nx nc c - cutIndex nx nc (c + 1) <= nx / (nc + 1) + 1.
Proof.
  intros N X. unfold cutIndex. set (d := nc + 1) in *.
  replace (nx * (nc - c)) with (nx * (nc - (c + 1)) + nx) by ring. set (u := nx * (nc - (c + 1))). clearbody u.
  pose proof (Z.div_mod (u + nx) d ltac:(lia)). pose proof (Z.mod_pos_bound (u + nx) d N).
  pose proof (Z.div_mod u d ltac:(lia)). pose proof (Z.mod_pos_bound u d N).
  pose proof (Z.div_mod nx d ltac:(lia)). pose proof (Z.mod_pos_bound nx d N). nia.
Qed.

Theorem C76_repeated_cuts : forall nx nCuts, 1 <= nCuts -> 1 <= nx ->
  let cuts := map Z.of_nat (seq 0 (Z.to_nat nCuts)) in
  let q := nx / (nCuts + 1) in
  (nCuts < nx - 1 -> exists l, cutCounts nx nCuts cuts nx = Some l /\ Z.of_nat (length l) = nCuts /\
     (forall cnt idx, In (cnt, idx) l ->
        0 < idx < cnt - 1 /\ 0 < switchCutIndex cnt idx < cnt - 1 /\
        q - 1 <= cnt - 1 - idx <= q + 1) /\
     (exists cnt idx, last l (0, 0) = (cnt, idx) /\ idx = q)) /\
  (nx - 1 <= nCuts -> cutCounts nx nCuts cuts nx = None).
Proof.
  intros nx nc N X cuts q. split.
  - intros H.
    assert (G : forall k c cnt, (k <= Z.to_nat nc)%nat -> c = nc - Z.of_nat k -> 
       (cnt = nx /\ c = 0 \/ 0 < c /\ cnt = cutIndex nx nc (c - 1) + 1) ->
       exists l, cutCounts nx nc (map Z.of_nat (seq (Z.to_nat c) k)) cnt = Some l /\ length l = k /\
       (forall cnt idx, In (cnt, idx) l ->
        0 < idx < cnt - 1 /\ 0 < switchCutIndex cnt idx < cnt - 1 /\ q - 1 <= cnt - 1 - idx <= q + 1) /\
       ((0 < k)%nat -> exists cnt idx, last l (0, 0) = (cnt, idx) /\ idx = q)).
    { induction k as [|k IH]; intros c cnt Hk Hc Hcnt.
      - exists []. cbn. repeat split; try easy; lia.
      - cbn [seq map cutCounts]. cbv zeta. rewrite Z2Nat.id by lia.
        set (idx := cutIndex nx nc c).
        assert (D : 0 < nc + 1) by lia.
        pose proof (Z.div_mod nx (nc + 1) ltac:(lia)) as DM. pose proof (Z.mod_pos_bound nx (nc + 1) D) as MB. fold q in DM.
        assert (Q1 : 1 <= q) by nia.
        assert (I0 : 0 < idx).
        { unfold idx, cutIndex. apply Z.div_str_pos. split; [lia|]. nia. }
        assert (P : q - 1 <= cnt - 1 - idx <= q + 1 /\ idx < cnt - 1).
        { destruct Hcnt as [[-> ->]|[C0 ->]].
          - unfold idx, cutIndex. rewrite Z.sub_0_r.
            pose proof (Z.div_mod (nx * nc) (nc + 1) ltac:(lia)). pose proof (Z.mod_pos_bound (nx * nc) (nc + 1) D).
            nia.
          - pose proof (cutIndex_step nx nc (c - 1) D ltac:(lia)) as S. replace (c - 1 + 1) with c in S by ring.
            fold idx q in S. lia. }
        destruct P as [P1 P2].
        replace (idx <? cnt - 1) with true by (symmetry; lia).
        assert (SS : sliceStop cnt (idx + 1) = idx + 1).
        { unfold sliceStop. replace (idx + 1 <? 0) with false by (symmetry; lia). lia. }
        rewrite SS.
        destruct (IH (c + 1) (idx + 1)) as (l & El & Ll & Pl & Last); [lia|lia| |].
        { right. split; [lia|]. unfold idx. f_equal. f_equal. ring. }
        replace (Z.to_nat (c + 1)) with (S (Z.to_nat c)) in El by lia. rewrite El.
        exists ((cnt, idx) :: l). split; [reflexivity|]. split; [cbn; lia|]. split.
        + intros a b [Q|Q]; [|now apply Pl]. injection Q as <- <-. unfold switchCutIndex. lia.
        + intros _. destruct k as [|k].
          * destruct l; [|discriminate]. cbn [last]. exists cnt, idx. split; [reflexivity|].
            unfold idx, cutIndex, q. f_equal. replace (nc - c) with 1 by lia. ring.
          * destruct l as [|p l]; [discriminate|]. cbn [last]. apply Last. lia. }
    destruct (G (Z.to_nat nc) 0 nx) as (l & A & B & C & D); [lia|lia|left; auto|].
    exists l. split; [exact A|]. split; [lia|]. split; [exact C|]. apply D. lia.
  - intros H. unfold cuts. destruct (Z.to_nat nc) as [|k] eqn:E; [lia|]. cbn [seq map cutCounts]. cbv zeta. cbn [Z.of_nat].
    replace (cutIndex nx nc 0 <? nx - 1) with false; [reflexivity|]. symmetry. apply Z.ltb_ge.
    unfold cutIndex. rewrite Z.sub_0_r. apply Z.div_le_lower_bound; nia.
Qed.

Example C76_repeated_ex : cutCounts 10 3 [0;1;2] 10 = Some [(10, 7); (8, 5); (6, 2)] /\ cutCounts 4 3 [0;1;2] 4 = None.
Proof. split; reflexivity. Qed.

Print Assumptions C76_cut_block.
Print Assumptions C76_cells_partition.
Print Assumptions C76_repeated_cuts.
