(** C160, C161: output of single arrays. *)
From Coq Require Import Reals ZArith NArith String Ascii List Bool Lia Lra Permutation.
From Verif Require Import M_Topology M_Halo M_Grid M_Metrics M_Procs L_Procs M_Io S_Io L_Io L_Io2 P_Io2 P_Io3 M_Arbitrary S_Arbitrary L_Arbitrary L_Arbitrary2.
Import ListNotations.
Open Scope Z_scope.

Lemma assign_other {A} (l : list (text * A)) name f file v : ofArray name file -> ~ ofArray name f -> assoc (assign l file v) f = assoc l f.
Proof. intros A1 A2. apply assoc_assign_other. intros ->. contradiction. Qed.
(** * C160 *)
(** The serial output of an array with one entry, or one row of entries, per cell - with or without halos, lumped or not, animated or not - works over whatever files there are; for
    each block the XDMF file has its number and extents and one scalar per part of the array, and each of these leads to the values of that part in all cells shown.  Files of other
    names are left alone *)
Theorem C160_serial : forall rnd wh lump animate nrt tme name mb d0, NoDup (map (fun b => io_num (ab_io b)) mb) ->
  (forall b, In b mb -> io_nrt (ab_io b) = nrt /\ io_tme (ab_io b) = tme /\ 1 <= io_ng (ab_io b) /\ goodDims (io_dims (ab_io b)) /\ exists a, ab_array b name = Some a /\ perCell (ab_io b) a) ->
  exists d, writeArbitrary rnd wh lump animate nrt name mb d0 = Some d /\
    Forall2 (fun b x => exists a, ab_array b name = Some a /\ gridShows rnd wh d (ab_io b) name a x) mb (xdmfArbitrary wh lump animate nrt tme name mb) /\
    (forall f, ~ ofArray name f -> assoc d f = assoc d0 f).
Proof.
  intros rnd wh lump animate nrt tme name mb d0 ND H.
  assert (OK : forall b, In b mb -> io_tme (ab_io b) = tme /\ exists a, okBlock name nrt b a). { intros b I. destruct (H b I) as (N & T & G & D & a & A & P). split; [exact T | ]. exists a. unfold okBlock. auto. }
  assert (X : exists d, writeArbitrary rnd wh lump animate nrt name mb d0 = Some d /\ (forall b a, In b mb -> ab_array b name = Some a -> exists qf, assoc d (arrFileName name lump animate nrt (numOf b)) = Some qf /\ holdsA rnd wh name qf (ab_io b) a) /\
    (forall f, ~ ofArray name f -> assoc d f = assoc d0 f)).
  { unfold writeArbitrary. destruct lump.
    - destruct (lump_arr rnd wh name nrt tme mb ND OK [] (or_introl eq_refl) ltac:(reflexivity)) as (qf & E & _ & Hh & _). rewrite E. eexists. split; [reflexivity | ]. split.
      + intros b a I A. exists qf. split; [exact (assoc_assign_same d0 (arrFileName name true animate nrt 0) qf) | exact (Hh b a I A)].
      + intros f Hf. apply (assign_other d0 name); [apply arrFile_of | exact Hf].
    - destruct (each_file (fun b => numOf b) (arrFileName name false animate nrt) (writeArrBlock rnd wh name []) (fun qf b => forall a, ab_array b name = Some a -> holdsA rnd wh name qf (ab_io b) a)) with (l := mb) (d := d0) as (d & E & A & O).
      + intros n m. apply arrFileName_inj.
      + exact ND.
      + intros b I. destruct (OK b I) as (T & a & N & G & D & A & P). destruct (writeArrBlock_ok rnd wh name [] b a nrt tme N T G D A P eq_refl (or_introl eq_refl)) as (qf & E & _ & Hh & _).
        exists qf. split; [exact E | ]. intros a' A'. replace a' with a by congruence. exact Hh.
      + exists d. split; [ | split].
        * erewrite foldM_ext; [exact E | ]. intros d1 b I. cbv beta. destruct (OK b I) as (_ & a & N & _). rewrite N. reflexivity.
        * intros b a I A1. destruct (A b I) as (qf & F & Hh). exists qf. split; [exact F | exact (Hh a A1)].
        * intros f Hf. apply O. intros b I ->. apply Hf, arrFile_of. }
  destruct X as (d & E & A & O). exists d. split; [exact E | ]. split; [ | exact O]. unfold xdmfArbitrary. clear E ND O. induction mb as [|b mb IH]; [constructor | ]. cbn [map]. constructor.
  - destruct (OK b (or_introl eq_refl)) as (_ & a & N & G & D & Aa & P). destruct (A b a (or_introl eq_refl) Aa) as (qf & F & Hh). exists a. split; [exact Aa | ]. rewrite Aa.
    apply (grid_shows rnd wh name lump animate nrt (arbitraryTime tme) d qf (ab_io b) a (arrHalo wh b) G D eq_refl F Hh). reflexivity.
  - apply IH; [intros b' I; apply H; right; exact I | intros b' I; apply OK; right; exact I | intros b' a I; apply A; right; exact I].
Qed.
(** The same in parallel, if every rank has a block: however blocks 0 .. N-1 are spread over the ranks and in whatever order their data come to be written; the XDMF entry of number n
    is that of block n and has the time of the state *)
Theorem C160_parallel : forall rnd lump animate nrt tme name procs ranks shuffle d0, spread procs (map (map ab_io) ranks) -> ranks <> [] -> (forall r, In r ranks -> r <> []) -> (forall l, Permutation (shuffle l) l) ->
  (forall b, In b (concat ranks) -> io_nrt (ab_io b) = nrt /\ 1 <= io_ng (ab_io b) /\ goodDims (io_dims (ab_io b)) /\ exists a, ab_array b name = Some a /\ perCell (ab_io b) a) ->
  (forall b b' a a', In b (concat ranks) -> In b' (concat ranks) -> ab_array b name = Some a -> ab_array b' name = Some a' -> a_comps a = a_comps a') ->
  exists d, parallelWriteArbitrary rnd lump animate nrt tme name (totalNiList procs (map (map ab_io) ranks)) shuffle ranks d0 = Some d /\
    (forall b a b0 a0, In b (concat ranks) -> ab_array b name = Some a -> In b0 (concat ranks) -> ab_array b0 name = Some a0 ->
       exists x, nth_error (xdmfParallelArbitrary lump animate nrt tme (arrNames name a0) name (totalNiList procs (map (map ab_io) ranks))) (N.to_nat (io_num (ab_io b))) = Some x /\ xg_time x = tme /\ gridShows rnd false d (ab_io b) name a x) /\
    (forall f, ~ ofArray name f -> assoc d f = assoc d0 f).
Proof.
  intros rnd lump animate nrt tme name procs ranks shuffle d0 Sp NR NE Sh H C.
  destruct (all_tasks name ranks NE) as (tk & E & M & F). { intros b I. destruct (H b I) as (_ & _ & _ & a & A & _). exists a. exact A. }
  assert (Cc : concat (map (map ab_io) ranks) = map ab_io (concat ranks)) by (rewrite concat_map; reflexivity).
  destruct (total_nth procs (map (map ab_io) ranks) Sp) as [_ Tn]. rewrite Cc in Tn.
  set (exts := totalNiList procs (map (map ab_io) ranks)) in *.
  assert (ND0 : NoDup (map (fun b => numOf b) (concat ranks))).
  { apply (NoDup_map_inv Z.of_N). rewrite map_map. destruct Sp as [E1 P1]. replace (map (fun x => Z.of_N (numOf x)) (concat ranks)) with (concat procs); [ | rewrite <- E1; rewrite <- (concat_map (fun b => Z.of_N (io_num b))), Cc, map_map; reflexivity].
    apply (Permutation_NoDup (Permutation_sym P1)). apply FinFun.Injective_map_NoDup; [intros x y; lia | apply seq_NoDup]. }
  assert (ND : NoDup (map (fun x => taskNum x) (shuffle tk))).
  { apply (Permutation_NoDup (l := map (fun x => taskNum x) tk)); [apply Permutation_map, Permutation_sym, Sh | ]. replace (map (fun x : arr * arrBlock => taskNum x) tk) with (map (fun b => numOf b) (concat ranks)); [exact ND0 | rewrite <- M, map_map; reflexivity]. }
  assert (Tin : forall fi b, In (fi, b) (shuffle tk) -> In b (concat ranks) /\ exists a, okBlock name nrt b a /\ a_comps fi = a_comps a /\ forall b0 a0, In b0 (concat ranks) -> ab_array b0 name = Some a0 -> arrNames name a0 = arrNames name a /\ a_comps a0 = a_comps a).
  { intros fi b I. apply (Permutation_in _ (Sh tk)) in I. assert (Ib : In b (concat ranks)) by (rewrite <- M; exact (in_map snd _ _ I)). split; [exact Ib | ]. destruct (H b Ib) as (N & G & D & a & A & P). exists a. split; [unfold okBlock; auto | ].
    destruct (F fi b I) as (b' & I' & A'). split; [exact (C b' b fi a I' Ib A' A) | ]. intros b0 a0 I0 A0. pose proof (C b0 b a0 a I0 Ib A0 A) as Q. split; [apply names_comps; exact Q | exact Q]. }
  assert (Tcov : forall b, In b (concat ranks) -> exists fi, In (fi, b) (shuffle tk)).
  { intros b I. rewrite <- M in I. apply in_map_iff in I. destruct I as ([fi b'] & <- & I). exists fi. apply (Permutation_in _ (Permutation_sym (Sh tk))). exact I. }
  assert (X : exists d, parallelWriteArbitrary rnd lump animate nrt tme name exts shuffle ranks d0 = Some d /\ (forall b a, In b (concat ranks) -> ab_array b name = Some a -> exists qf, assoc d (arrFileName name lump animate nrt (numOf b)) = Some qf /\ holdsA rnd false name qf (ab_io b) a) /\
    (forall f, ~ ofArray name f -> assoc d f = assoc d0 f)).
  { unfold parallelWriteArbitrary. rewrite E. destruct lump.
    - destruct tk as [|[first b1] tk'] eqn:Etk.
      { exfalso. cbn [map] in M. destruct ranks as [|r ranks]; [congruence | ]. specialize (NE r (or_introl eq_refl)). destruct r; [congruence | discriminate M]. }
      rewrite <- Etk in *. assert (I1 : exists b', In b' (concat ranks) /\ ab_array b' name = Some first) by (apply (F first b1); rewrite Etk; left; reflexivity). destruct I1 as (bf & If & Af).
      destruct (arrFrame_spec (arrNames name first) nrt tme) with (exts := exts) as (f & Ef & _ & Fr); [rewrite arrNames_parts; apply parts_nodup | ]. rewrite Ef.
      destruct (fill_tasks rnd name (arrNames name first) (shuffle tk) f ND) as (f' & E' & Hh & _).
      { intros fi b I. destruct (Tin fi b I) as (Ib & a & (N & G & D & A & P) & Cf & Ca). exists a. do 5 (split; [assumption | ]). split; [apply (Ca bf first If Af) | ]. 
        rewrite <- (N2Nat.id (numOf b)). apply Fr. rewrite N2Nat.id || idtac. apply (Tn (ab_io b)). apply in_map. exact Ib. }
      rewrite E'. eexists. split; [reflexivity | ]. split.
      + intros b a I A. exists f'. split; [exact (assoc_assign_same d0 (arrFileName name true animate nrt 0) f') | ]. destruct (Tcov b I) as (fi & It). exact (Hh fi b a It A).
      + intros g Hg. apply (assign_other d0 name); [apply arrFile_of | exact Hg].
    - set (file := fun x : arr * arrBlock => match group (emptyGroup (arrNames name (fst x)) (extOf (ab_io (snd x)))) with None => None | Some g => fillArrBlock rnd name [(t "iter", iterData nrt tme); (resS (taskNum x), g)] x end).
      destruct (each_file (fun x : arr * arrBlock => taskNum x) (arrFileName name false animate nrt) file (fun qf x => forall a, ab_array (snd x) name = Some a -> holdsA rnd false name qf (ab_io (snd x)) a)) with (l := shuffle tk) (d := d0) as (d & Ed & A & O).
      + intros n m. apply arrFileName_inj.
      + exact ND.
      + intros [fi b] I. destruct (Tin fi b I) as (Ib & a & (N & G & D & A & P) & Cf & Ca). unfold file. cbn [fst snd]. rewrite (names_comps name fi a Cf). rewrite group_ok by (rewrite empty_names, arrNames_parts; apply parts_nodup).
        destruct (fillArrBlock_ok rnd name [(t "iter", iterData nrt tme); (resS (numOf b), emptyGroup (arrNames name a) (extOf (ab_io b)))] fi b a (ni (io_dims (ab_io b))) (nj (io_dims (ab_io b))) (nk (io_dims (ab_io b)))) as (qf & Eq & Hh & _); auto.
        { cbn [assoc]. destruct (text_dec (resS (numOf b)) (t "iter")) as [Q | _]; [elim (resS_iter _ Q) | ]. destruct (text_dec (resS (numOf b)) (resS (numOf b))); [reflexivity | congruence]. }
        exists qf. split; [exact Eq | ]. intros a' A'. replace a' with a by congruence. exact Hh.
      + exists d. split; [ | split].
        * erewrite foldM_ext; [exact Ed | ]. intros d1 [fi b] I. cbv beta iota. destruct (Tin fi b I) as (_ & a & (N & _) & _). rewrite N. reflexivity.
        * intros b a I A1. destruct (Tcov b I) as (fi & It). destruct (A (fi, b) It) as (qf & Fq & Hh). exists qf. split; [exact Fq | exact (Hh a A1)].
        * intros f Hf. apply O. intros b I ->. apply Hf, arrFile_of. }
  destruct X as (d & Ed & A & O). exists d. split; [exact Ed | ]. split; [ | exact O]. intros b a b0 a0 I Aa I0 A0. destruct (H b I) as (_ & G & D & a' & Aa' & P). assert (a' = a) by congruence. subst a'.
  specialize (Tn (ab_io b) (in_map ab_io _ _ I)). unfold xdmfParallelArbitrary. clearbody exts.
  assert (En : nth_error (combine (seq 0 (List.length exts)) exts) (N.to_nat (numOf b)) = Some (N.to_nat (numOf b), extOf (ab_io b))).
  { assert (L : (N.to_nat (numOf b) < List.length exts)%nat) by (apply nth_error_Some; congruence).
    rewrite (nth_error_nth' _ (0%nat, extOf (ab_io b))) by (rewrite combine_length, seq_length; lia). f_equal. rewrite combine_nth by apply seq_length. rewrite seq_nth by exact L. rewrite (nth_error_nth _ _ _ Tn). reflexivity. }
  rewrite nth_error_map, En. cbn [option_map]. rewrite N2Nat.id. eexists. split; [reflexivity | ]. split; [unfold xdmfArrBlock, extOf; reflexivity | ].
  destruct (A b a I Aa) as (qf & F1 & Hh). apply (grid_shows rnd false name lump animate nrt (arbitraryTimeParallel tme) d qf (ab_io b) a 0 G D eq_refl F1 Hh). apply names_comps. exact (C b0 b a0 a I0 I A0 Aa).
Qed.
(** But a rank that has no block ends the parallel output, whatever the others hold *)
Theorem C160_idle_rank_refuted : forall rnd lump animate nrt tme name exts shuffle ranks d0, In [] ranks -> parallelWriteArbitrary rnd lump animate nrt tme name exts shuffle ranks d0 = None.
Proof.
  intros rnd lump animate nrt tme name exts shuffle ranks d0 I. unfold parallelWriteArbitrary, allTasks. assert (X : mapM (rankTasks name) ranks = None); [ | rewrite X; reflexivity].
  induction ranks as [|r ranks IH]; [destruct I | ]. cbn [mapM]. destruct I as [-> | I]; [reflexivity | ]. rewrite (IH I). destruct (rankTasks name r); reflexivity.
Qed.
(** Values on faces, edges or nodes are never taken for values of cells: the output stops with an error *)
Lemma wrong_size wh b a four j l : 1 <= io_ng b -> goodDims (io_dims b) -> notPerCell b a -> sliceF wh (io_ng b) four a j = Some l -> fitTo (shownSize wh b) l = None.
Proof.
  intros G (D1 & D2 & D3) (e1 & e2 & e3 & B1 & B2 & B3 & Pos & S) Hl.
  assert (E : forall n e, 2 <= n -> 0 <= e -> (if wh then n - 1 + 2 * io_ng b + e else inner (io_ng b) (n - 1 + 2 * io_ng b + e)) = shown wh b n + e).
  { intros n e Hn He. unfold shown, inner. destruct wh; [reflexivity | ]. destruct (Z.eqb_spec (io_ng b) 0); lia. }
  assert (L : List.length l = Z.to_nat ((shown wh b (ni (io_dims b)) + e1) * (shown wh b (nj (io_dims b)) + e2) * (shown wh b (nk (io_dims b)) + e3))).
  { unfold sliceF in Hl. rewrite S in Hl. cbv beta zeta in Hl. rewrite !E in Hl by lia. 
    assert (NN : forall n, 2 <= n -> 0 <= shown wh b n) by (intros n Hn; apply shown_nonneg; lia). pose proof (NN _ D1) as M1. pose proof (NN _ D2) as M2. pose proof (NN _ D3) as M3.
    destruct (a_comps a) as [c | ], four; try discriminate; try (destruct (Nat.ltb j c); [ | discriminate]); try (destruct (Nat.eqb c 1); [ | discriminate]); apply some_inj in Hl; subst l; apply ravelF_length; lia. }
  assert (NN : forall n, 2 <= n -> 1 <= shown wh b n) by (intros n Hn; unfold shown; destruct wh; lia). pose proof (NN _ D1) as M1. pose proof (NN _ D2) as M2. pose proof (NN _ D3) as M3.
  unfold fitTo, shownSize. set (m1 := shown wh b (ni (io_dims b))) in *. set (m2 := shown wh b (nj (io_dims b))) in *. set (m3 := shown wh b (nk (io_dims b))) in *. clearbody m1 m2 m3.
  assert (P1 : 1 <= m1 * m2) by nia. assert (P2 : 1 <= m1 * m2 * m3) by nia.
  assert (Q : m1 * m2 * m3 < (m1 + e1) * (m2 + e2) * (m3 + e3)).
  { assert (P3 : m1 * m2 <= (m1 + e1) * (m2 + e2)) by (apply Z.mul_le_mono_nonneg; lia). destruct B3 as [-> | ->].
    - rewrite Z.add_0_r. apply Z.mul_lt_mono_pos_r; [lia | ]. destruct B1 as [-> | ->], B2 as [-> | ->]; nia.
    - apply Z.le_lt_trans with ((m1 + e1) * (m2 + e2) * m3); [apply Z.mul_le_mono_nonneg_r; lia | nia]. }
  destruct (Nat.eqb_spec (List.length l) (Z.to_nat (m1 * m2 * m3))) as [Q2 | _]; [rewrite L in Q2; apply Z2Nat.inj in Q2; lia | ].
  destruct l as [|x [|y l]]; [reflexivity | | reflexivity]. exfalso. cbn [List.length] in L. apply (f_equal Z.of_nat) in L. rewrite Z2Nat.id in L by lia. change (Z.of_nat 1) with 1 in L. lia.
Qed.
Lemma foldM_fails {A B} (f : A -> B -> option A) l x : In x l -> (forall a, f a x = None) -> forall a, foldM f l a = None.
Proof. induction l as [|y l IH]; intros I H a; [destruct I | ]. cbn [foldM]. destruct I as [-> | I]; [rewrite H; reflexivity | ]. destruct (f a y); [apply IH; assumption | reflexivity]. Qed.
Theorem C160_other_arrays_stop : forall rnd wh lump animate nrt name mb d0 b a, In b mb -> ab_array b name = Some a -> notPerCell (ab_io b) a -> (1 <= parts a)%nat -> 1 <= io_ng (ab_io b) -> goodDims (io_dims (ab_io b)) ->
  writeArbitrary rnd wh lump animate nrt name mb d0 = None.
Proof.
  intros rnd wh lump animate nrt name mb d0 b a I A N P G D.
  assert (X : forall qf, writeArrBlock rnd wh name qf b = None).
  { intros qf. unfold writeArrBlock. rewrite A. replace (arrData rnd wh name b a) with (@None (list (text * data))); [reflexivity | ]. unfold arrData. rewrite numbered_parts. destruct (parts a) as [|n]; [lia | ]. cbn [seq map mapM].
    destruct (sliceF wh (io_ng (ab_io b)) (isFour a) a 0) as [l | ] eqn:El; [ | reflexivity]. rewrite extent_is, (wrong_size wh (ab_io b) a _ _ l G D N El). reflexivity. }
  unfold writeArbitrary. destruct lump; [rewrite (foldM_fails _ mb b I X); reflexivity | ]. apply (foldM_fails _ mb b I). intros d. rewrite X. reflexivity.
Qed.
(** in parallel as well *)
Theorem C160_other_arrays_stop_parallel : forall rnd lump animate nrt tme name procs ranks shuffle d0 b a, spread procs (map (map ab_io) ranks) -> (forall l, Permutation (shuffle l) l) ->
  In b (concat ranks) -> ab_array b name = Some a -> notPerCell (ab_io b) a -> 1 <= io_ng (ab_io b) -> goodDims (io_dims (ab_io b)) ->
  (forall b' a', In b' (concat ranks) -> ab_array b' name = Some a' -> (1 <= parts a')%nat) ->
  parallelWriteArbitrary rnd lump animate nrt tme name (totalNiList procs (map (map ab_io) ranks)) shuffle ranks d0 = None.
Proof.
  intros rnd lump animate nrt tme name procs ranks shuffle d0 b a Sp Sh I A N G D P.
  unfold parallelWriteArbitrary. destruct (allTasks name ranks) as [tk | ] eqn:E; [ | reflexivity].
  (* the tasks *)
  assert (T : forall ranks tk, allTasks name ranks = Some tk -> map snd tk = concat ranks /\ forall fi x, In (fi, x) tk -> exists b', In b' (concat ranks) /\ ab_array b' name = Some fi).
  { clear. unfold allTasks. induction ranks as [|r ranks IH]; intros tk E; [apply some_inj in E; subst tk; split; [reflexivity | intros fi x []] | ]. cbn [mapM] in E. destruct r as [|b0 r]; [discriminate | ]. cbn [rankTasks] in E. destruct (ab_array b0 name) as [a0 | ] eqn:A0; [ | discriminate].
    destruct (mapM (rankTasks name) ranks) as [l | ]; [ | discriminate]. cbn [option_map] in E. apply some_inj in E. subst tk. destruct (IH (concat l) eq_refl) as [M F]. cbn [concat]. split.
    - rewrite map_app, M, map_map. cbn [snd]. rewrite map_id. reflexivity.
    - intros fi x J. apply in_app_or in J. destruct J as [J | J]; [apply in_map_iff in J; destruct J as (y & Q & _); injection Q as <- <-; exists b0; split; [left; reflexivity | exact A0] | ].
      destruct (F fi x J) as (b' & J' & A'). exists b'. split; [apply in_or_app; right; exact J' | exact A']. }
  destruct (T ranks tk E) as [M F]. assert (J : exists fi, In (fi, b) (shuffle tk)). { rewrite <- M in I. apply in_map_iff in I. destruct I as ([fi b'] & Q & J). cbn [snd] in Q. subst b'. exists fi. apply (Permutation_in _ (Permutation_sym (Sh tk))). exact J. }
  destruct J as (fi & J). assert (Pf : (1 <= parts fi)%nat). { destruct (F fi b) as (b' & I' & A'); [apply (Permutation_in _ (Sh tk)); exact J | ]. exact (P b' fi I' A'). }
  assert (X : forall (qf : h5) names n1 n2 n3, (n1 - 1) * (n2 - 1) * (n3 - 1) = (ni (io_dims (ab_io b)) - 1) * (nj (io_dims (ab_io b)) - 1) * (nk (io_dims (ab_io b)) - 1) -> assoc qf (resS (numOf b)) = Some (emptyGroup names (n1, n2, n3)) -> fillArrBlock rnd name qf (fi, b) = None).
  { intros qf names n1 n2 n3 Ex Fq. unfold fillArrBlock. rewrite A, Fq, numbered_parts. destruct (parts fi) as [|n]; [lia | ]. cbn [seq map fillArr]. destruct (assoc (emptyGroup names (n1, n2, n3)) (partName name fi 0)) as [v | ] eqn:Ev; [ | reflexivity].
    assert (L : exists l, v = DArr l /\ List.length l = shownSize false (ab_io b)).
    { apply assoc_some_in in Ev. unfold emptyGroup in Ev. apply in_map_iff in Ev. destruct Ev as (nm & Q & _). apply (f_equal snd) in Q. cbn [snd] in Q. subst v. eexists. split; [reflexivity | ]. rewrite repeat_length, Ex. reflexivity. }
    destruct L as (l & -> & L). destruct (sliceF false (io_ng (ab_io b)) (isFour fi) a 0) as [l' | ] eqn:El; [ | reflexivity]. rewrite L, (wrong_size false (ab_io b) a _ _ l' G D N El). reflexivity. }
  destruct lump.
  - destruct tk as [|[first b1] tk'] eqn:Etk; [reflexivity | ]. rewrite <- Etk in *. destruct (total_nth procs (map (map ab_io) ranks) Sp) as [_ Tn].
    destruct (arrFrame_spec (arrNames name first) nrt tme) with (exts := totalNiList procs (map (map ab_io) ranks)) as (f & Ef & _ & Fr); [rewrite arrNames_parts; apply parts_nodup | ]. rewrite Ef.
    assert (Fb : assoc f (resS (numOf b)) = Some (emptyGroup (arrNames name first) (nk (io_dims (ab_io b)), nj (io_dims (ab_io b)), ni (io_dims (ab_io b))))).
    { rewrite <- (N2Nat.id (numOf b)). apply Fr. rewrite N2Nat.id || idtac. apply (Tn (ab_io b)). rewrite <- concat_map. apply in_map. exact I. }
    assert (Y : forall order (f : h5), In (fi, b) order -> NoDup (map (fun x => taskNum x) order) -> assoc f (resS (numOf b)) = Some (emptyGroup (arrNames name first) (nk (io_dims (ab_io b)), nj (io_dims (ab_io b)), ni (io_dims (ab_io b)))) -> foldM (fillArrBlock rnd name) order f = None).
    { induction order as [|[g c] order IH]; intros f1 In1 ND1 F1; [destruct In1 | ]. cbn [foldM]. destruct In1 as [Q | In1]; [injection Q as -> ->; rewrite (X f1 (arrNames name first) (nk (io_dims (ab_io b))) (nj (io_dims (ab_io b))) (ni (io_dims (ab_io b))) ltac:(ring) F1); reflexivity | ].
      cbn [map snd] in ND1. apply NoDup_cons_iff in ND1. destruct ND1 as [N1 ND1]. destruct (fillArrBlock rnd name f1 (g, c)) as [f2 | ] eqn:E2; [ | reflexivity]. apply IH; [exact In1 | exact ND1 | ].
      assert (Ne : resS (numOf b) <> resS (numOf c)) by (intros Q; apply resS_inj in Q; apply N1; rewrite <- Q; exact (in_map (fun x => taskNum x) _ _ In1)).
      unfold fillArrBlock in E2. destruct (ab_array c name); [ | discriminate]. destruct (assoc f1 (resS (numOf c))); [ | discriminate]. destruct (fillArr _ _ _ _ _ _); [ | discriminate]. cbn [option_map] in E2. apply some_inj in E2. subst f2. rewrite assoc_assign_other by exact Ne. exact F1. }
    rewrite Y; [reflexivity | exact J | | exact Fb].
    apply (Permutation_NoDup (l := map (fun x => taskNum x) tk)); [apply Permutation_map, Permutation_sym, Sh | ]. replace (map (fun x : arr * arrBlock => taskNum x) tk) with (map (fun b => numOf b) (concat ranks)) by (rewrite <- M, map_map; reflexivity).
    apply (NoDup_map_inv Z.of_N). rewrite map_map. destruct Sp as [E1 P1]. replace (map (fun x => Z.of_N (numOf x)) (concat ranks)) with (concat procs); [ | rewrite <- E1; rewrite <- (concat_map (fun b => Z.of_N (io_num b))), <- concat_map, map_map; reflexivity].
    apply (Permutation_NoDup (Permutation_sym P1)). apply FinFun.Injective_map_NoDup; [intros x y; lia | apply seq_NoDup].
  - apply (foldM_fails _ (shuffle tk) (fi, b) J). intros d. cbv beta iota. rewrite group_ok by (rewrite empty_names, arrNames_parts; apply parts_nodup).
    rewrite (X _ (arrNames name fi) (ni (io_dims (ab_io b))) (nj (io_dims (ab_io b))) (nk (io_dims (ab_io b)))); [reflexivity | reflexivity | ].
    cbn [assoc]. destruct (text_dec (resS (numOf b)) (t "iter")) as [Q | _]; [elim (resS_iter _ Q) | ]. destruct (text_dec (resS (numOf b)) (resS (numOf b))); [reflexivity | congruence].
Qed.
