(** C66 (restarts), C67, C68. *)
From Coq Require Import Reals ZArith NArith String Ascii List Bool Lia Lra Permutation Sorted.
From Verif Require Import M_Topology M_Halo M_Grid M_Metrics M_Procs L_Procs S_Procs P_Procs M_Io S_Io L_Io L_Io2.
Import ListNotations.
Open Scope Z_scope.

(** * C66: restarts *)
Lemma fileValue_arr rnd w a name i j k : goodDims (io_dims w) -> isCell (io_dims w) i j k -> assoc (resultData rnd false w) name = Some (DArr (map rnd (flat false w a))) ->
  fileValue rnd w name i j k = Some (rnd (a (io_ng w + i) (io_ng w + j) (io_ng w + k))).
Proof.
  intros (G1 & G2 & G3) (C1 & C2 & C3) H. unfold fileValue. rewrite H. unfold flat, cc, haloOf, firstOf. cbn [andb]. change (2 * 0) with 0. rewrite !Z.add_0_r.
  destruct (reshape_ravel rnd (ni (io_dims w) - 1) (nj (io_dims w) - 1) (nk (io_dims w) - 1) (io_ng w) a) as (v & -> & V); [lia | lia | lia | ]. cbn [option_map]. rewrite V by assumption. reflexivity.
Qed.
Lemma restored_from rnd w r : goodDims (io_dims w) -> goodNames (io_species w) ->
  (forall m name i j k, 0 <= m -> nth_error (varNames (io_species r)) (Z.to_nat m) = Some name -> isCell (io_dims w) i j k -> cellVar r m i j k = match fileValue rnd w name i j k with Some x => x | None => 0%R end) ->
  restored rnd w r.
Proof.
  intros G GN H i j k C m name Hm. specialize (H (Z.of_nat m) name i j k ltac:(lia)). rewrite Nat2Z.id in H. specialize (H Hm C). rewrite H. split; [ | split].
  - intros m' Hm'. rewrite (fileValue_arr rnd w (fun x y z => io_q w x y z (Z.of_nat m')) name i j k G C); [reflexivity | ]. apply result_var; [exact GN | lia | rewrite Nat2Z.id; exact Hm'].
  - intros ->. change (last (io_species w) []) with (lastName (io_species w)). rewrite (fileValue_arr rnd w (lastSpecies w) _ i j k G C (result_last rnd false w GN)). rewrite lastSpecies_spec, speciesSum_spec. reflexivity.
  - intros NI. unfold fileValue. destruct (assoc (resultData rnd false w) name) eqn:E; [ | reflexivity]. elim NI. apply assoc_some_in in E. apply (in_map fst) in E. cbn [fst] in E. rewrite result_names in E.
    apply in_app_or in E. destruct E as [E | E]; [ | right; exact E]. destruct (io_solver w); [ | destruct E]. destruct E as [E | []]. left. exact E.
Qed.
Lemma withIter_spec qf nrt tme : (assoc qf (t "iter") = None \/ assoc qf (t "iter") = Some (iterData nrt tme)) ->
  assoc (withIter qf nrt tme) (t "iter") = Some (iterData nrt tme) /\ forall k, k <> t "iter" -> assoc (withIter qf nrt tme) k = assoc qf k.
Proof.
  unfold withIter. intros [E | E].
  - rewrite E. split; [rewrite assoc_app, E; cbn [assoc]; destruct (text_dec (t "iter") (t "iter")); congruence | ]. intros k K. rewrite assoc_app. destruct (assoc qf k); [reflexivity | ]. cbn [assoc]. destruct (text_dec k (t "iter")); congruence.
  - rewrite E. split; [exact E | reflexivity].
Qed.
Lemma writeResBlock_spec wh rnd (qf : h5) w nrt tme : io_nrt w = nrt -> io_tme w = tme -> goodNames (io_species w) -> assoc qf (resS (io_num w)) = None ->
  (assoc qf (t "iter") = None \/ assoc qf (t "iter") = Some (iterData nrt tme)) ->
  exists qf', writeResBlock rnd wh qf w = Some qf' /\ assoc qf' (t "iter") = Some (iterData nrt tme) /\ holdsW wh rnd qf' w /\ forall k, k <> t "iter" -> k <> resS (io_num w) -> assoc qf' k = assoc qf k.
Proof.
  intros <- <- GN N I. unfold writeResBlock. rewrite group_ok by (apply result_nodup; exact GN). destruct (withIter_spec qf _ _ I) as [W1 W2].
  destruct (create_ok (withIter qf (io_nrt w) (io_tme w)) (resS (io_num w)) (resultData rnd wh w)) as [q2 E2]; [rewrite W2 by apply resS_iter; exact N | ]. rewrite E2. destruct (create_spec _ _ _ _ E2) as (_ & C1 & C2).
  exists q2. split; [reflexivity | ]. split; [rewrite C2 by (apply not_eq_sym, resS_iter); exact W1 | ]. split; [exists (resultData rnd wh w); split; [exact C1 | reflexivity] | ]. intros k K1 K2. rewrite C2, W2 by assumption. reflexivity.
Qed.
Lemma lump_res wh rnd nrt tme mb : NoDup (map io_num mb) -> (forall w, In w mb -> io_nrt w = nrt /\ io_tme w = tme /\ goodNames (io_species w)) -> forall qf : h5,
  (assoc qf (t "iter") = None \/ assoc qf (t "iter") = Some (iterData nrt tme)) -> (forall w, In w mb -> assoc qf (resS (io_num w)) = None) ->
  exists qf', foldM (writeResBlock rnd wh) mb qf = Some qf' /\ (mb <> [] -> assoc qf' (t "iter") = Some (iterData nrt tme)) /\ (forall w, In w mb -> holdsW wh rnd qf' w) /\
  (forall k, k <> t "iter" -> (forall w, In w mb -> k <> resS (io_num w)) -> assoc qf' k = assoc qf k).
Proof.
  induction mb as [|b mb IH]; cbn [map foldM]; intros ND G qf I F; [exists qf; split; [reflexivity | split; [congruence | split; [intros w [] | reflexivity]]] | ]. apply NoDup_cons_iff in ND. destruct ND as [N ND].
  destruct (G b (or_introl eq_refl)) as (G1 & G2 & G3). destruct (writeResBlock_spec wh rnd qf b nrt tme G1 G2 G3 (F b (or_introl eq_refl)) I) as (q1 & E & I1 & H1 & O1). rewrite E.
  assert (Dist : forall w, In w mb -> resS (io_num w) <> resS (io_num b)) by (intros w Iw Q; apply resS_inj in Q; apply N; rewrite <- Q; apply in_map; exact Iw).
  destruct (IH ND (fun w Iw => G w (or_intror Iw)) q1 (or_intror I1)) as (q2 & E2 & I2 & H2 & O2).
  { intros w Iw. rewrite O1; [apply F; right; exact Iw | apply resS_iter | apply Dist; exact Iw]. }
  exists q2. split; [exact E2 | ]. split; [ | split].
  - intros _. destruct mb as [|b2 mb]; [cbn [foldM] in E2; apply some_inj in E2; subst q2; exact I1 | apply I2; discriminate].
  - intros w [<- | Iw]; [ | apply H2; exact Iw]. destruct H1 as (g & A & B). exists g. split; [ | exact B]. rewrite O2; [exact A | apply resS_iter | intros w Iw; apply not_eq_sym, Dist; exact Iw].
  - intros k K1 K2. rewrite O2; [apply O1; [exact K1 | apply K2; left; reflexivity] | exact K1 | intros w Iw; apply K2; right; exact Iw].
Qed.
(** files written one per block, whatever each of them takes to build *)
Lemma single_files (P : h5 -> ioBlock -> Prop) (file : ioBlock -> option h5) animate nrt mb : NoDup (map io_num mb) -> (forall w, In w mb -> io_nrt w = nrt /\ exists qf, file w = Some qf /\ P qf w) -> forall d : disk,
  exists d', foldM (fun d b => option_map (assign d (varFileName false animate (io_nrt b) (io_num b))) (file b)) mb d = Some d' /\
  (forall w, In w mb -> exists qf, assoc d' (varFileName false animate nrt (io_num w)) = Some qf /\ P qf w) /\
  (forall n, ~ In n (map io_num mb) -> assoc d' (varFileName false animate nrt n) = assoc d (varFileName false animate nrt n)).
Proof.
  induction mb as [|b mb IH]; cbn [map foldM]; intros ND F d; [exists d; split; [reflexivity | split; [intros w [] | reflexivity]] | ]. apply NoDup_cons_iff in ND. destruct ND as [N ND].
  destruct (F b (or_introl eq_refl)) as (Nb & qf & E & Pb). rewrite E, Nb. cbn [option_map]. destruct (IH ND (fun w I => F w (or_intror I)) (assign d (varFileName false animate nrt (io_num b)) qf)) as (d' & E' & A & B).
  exists d'. split; [exact E' | ]. split.
  - intros w [<- | I]; [exists qf; rewrite B by exact N; rewrite assoc_assign_same; auto | apply A; exact I].
  - intros n Hn. cbn [In] in Hn. rewrite B by tauto. apply assoc_assign_other. intros Q. apply varFileName_inj in Q. apply Hn. left. congruence.
Qed.
Lemma varFileName_lump animate nrt n m : varFileName true animate nrt n = varFileName true animate nrt m. Proof. reflexivity. Qed.
(** what a program that reads block [r] gets *)
Definition readsBack (rnd : R -> R) (lump animate : bool) (nrt : N) (tme : R) (d : disk) (w r : ioBlock) : Prop :=
  exists r', readRestartBlock lump animate nrt d r = Some r' /\ io_num r' = io_num r /\ io_dims r' = io_dims r /\ io_ng r' = io_ng r /\ io_species r' = io_species r /\ io_nrt r' = nrt /\ io_tme r' = tme /\ restored rnd w r'.
Lemma reads_back rnd lump animate nrt tme d qf w r : goodDims (io_dims w) -> goodNames (io_species w) -> io_num r = io_num w -> io_dims r = io_dims w -> 0 <= io_ng r ->
  assoc d (varFileName lump animate nrt (io_num w)) = Some qf -> assoc qf (t "iter") = Some (iterData nrt tme) -> holds rnd qf w -> readsBack rnd lump animate nrt tme d w r.
Proof.
  intros G GN N D NG A It H. destruct (read_back rnd lump animate nrt nrt tme d qf w r N D NG G GN A It H) as (r' & E & R1 & R2 & R3 & R4 & R5 & R6 & V). exists r'.
  split; [exact E | ]. split; [exact R3 | ]. split; [exact R4 | ]. split; [exact R5 | ]. split; [exact R6 | ]. split; [exact R1 | ]. split; [exact R2 | ]. apply restored_from; [exact G | exact GN | rewrite R6; exact V].
Qed.
(** Writing the blocks of a multi-block, all at iteration [nrt] and time [tme], works over whatever files exist, lumped or not, animated or not; any block that reads its number
    back - with its own halo width and its own list of species - gets iteration, time and every variable *)
Theorem C66_restart_round_trip : forall rnd lump animate nrt tme mb d0, NoDup (map io_num mb) ->
  (forall w, In w mb -> io_nrt w = nrt /\ io_tme w = tme /\ goodDims (io_dims w) /\ goodNames (io_species w)) ->
  exists d, writeRestart rnd false lump animate nrt mb d0 = Some d /\
  forall w r, In w mb -> io_num r = io_num w -> io_dims r = io_dims w -> 0 <= io_ng r -> readsBack rnd lump animate nrt tme d w r.
Proof.
  intros rnd lump animate nrt tme mb d0 ND H. unfold writeRestart. destruct lump.
  - destruct (lump_res false rnd nrt tme mb ND ltac:(intros w I; destruct (H w I) as (A & B & _ & C); auto) [] (or_introl eq_refl) ltac:(reflexivity)) as (qf & E & It & Hh & _). rewrite E. eexists. split; [reflexivity | ].
    intros w r I N D NG. destruct (H w I) as (_ & _ & G & GN). apply (reads_back rnd true animate nrt tme _ qf); auto; [exact (assoc_assign_same d0 (varFileName true animate nrt 0) qf) | apply It; intros ->; destruct I].
  - destruct (single_files (fun qf w => assoc qf (t "iter") = Some (iterData nrt tme) /\ holds rnd qf w) (writeResBlock rnd false []) animate nrt mb ND) with (d := d0) as (d & E & A & _).
    { intros w I. destruct (H w I) as (N1 & T1 & _ & GN). split; [exact N1 | ]. destruct (writeResBlock_spec false rnd [] w nrt tme N1 T1 GN eq_refl (or_introl eq_refl)) as (qf & E & It & Hh & _). eauto. }
    exists d. split; [exact E | ]. intros w r I N D NG. destruct (H w I) as (_ & _ & G & GN). destruct (A w I) as (qf & F & It & Hh). apply (reads_back rnd false animate nrt tme d qf); auto.
Qed.

(** ** the parallel writer *)
Definition allArr (n : nat) (ds : list (text * data)) : Prop := forall k v, assoc ds k = Some v -> exists l, v = DArr l /\ List.length l = n.
Lemma fillGroup_spec n : forall ds g, NoDup (map fst ds) -> (forall k v, In (k, v) ds -> exists l, v = DArr l /\ List.length l = n) ->
  (forall k, In k (map fst ds) -> exists l, assoc g k = Some (DArr l) /\ List.length l = n) -> exists g', fillGroup g ds = Some g' /\
  (forall k v, In (k, v) ds -> assoc g' k = Some v) /\ (forall k, ~ In k (map fst ds) -> assoc g' k = assoc g k).
Proof.
  induction ds as [|[k v] ds IH]; intros g ND A G; cbn [fillGroup]; [exists g; split; [reflexivity | split; [intros k v [] | reflexivity]] | ].
  cbn [map fst] in ND. apply NoDup_cons_iff in ND. destruct ND as [N ND]. destruct (A k v (or_introl eq_refl)) as (l & -> & L). destruct (G k (or_introl eq_refl)) as (old & Eo & Lo). rewrite Eo, Lo, L, Nat.eqb_refl.
  destruct (IH (assign g k (DArr l)) ND) as (g' & E & B & C).
  { intros k2 v2 I. apply (A k2 v2). right. exact I. }
  { intros k2 I. destruct (text_dec k2 k) as [-> | D]; [contradiction | ]. rewrite assoc_assign_other by exact D. apply G. right. exact I. }
  exists g'. split; [exact E | ]. split.
  - intros k2 v2 [I | I]; [injection I as <- <-; rewrite C by exact N; apply assoc_assign_same | apply B; exact I].
  - intros k2 K. cbn [map fst In] in K. rewrite C by tauto. apply assoc_assign_other. intros ->. apply K. auto.
Qed.
Lemma empty_names names e : map fst (emptyGroup names e) = names.
Proof. destruct e as [[a b] c]. unfold emptyGroup. rewrite map_map. apply map_id. Qed.
Lemma empty_assoc names a b c k : In k names -> exists l, assoc (emptyGroup names (a, b, c)) k = Some (DArr l) /\ List.length l = Z.to_nat ((a - 1) * (b - 1) * (c - 1)).
Proof.
  unfold emptyGroup. induction names as [|n names IH]; intros I; [destruct I | ]. cbn [map assoc]. destruct (text_dec k n) as [-> | D]; [eexists; split; [reflexivity | apply repeat_length] | ]. destruct I as [-> | I]; [congruence | auto].
Qed.
Lemma solver_names species : species <> [] -> solverNames species = t "rho" :: varNames species ++ [lastName species].
Proof. intros H. unfold solverNames. rewrite names_split by exact H. reflexivity. Qed.
Lemma fillBlock_spec rnd (qf : h5) w names a b c : names = solverNames (io_species w) -> goodNames (io_species w) -> goodDims (io_dims w) -> io_solver w = true -> (a - 1) * (b - 1) * (c - 1) = (ni (io_dims w) - 1) * (nj (io_dims w) - 1) * (nk (io_dims w) - 1) ->
  assoc qf (resS (io_num w)) = Some (emptyGroup names (a, b, c)) ->
  exists qf', fillBlock rnd qf w = Some qf' /\ holds rnd qf' w /\ forall k, k <> resS (io_num w) -> assoc qf' k = assoc qf k.
Proof.
  intros Nm GN G S Ex A. unfold fillBlock. rewrite A. assert (Nms : map fst (resultData rnd false w) = names) by (rewrite result_names, S, Nm, solver_names by apply GN; reflexivity).
  destruct (fillGroup_spec (Z.to_nat ((a - 1) * (b - 1) * (c - 1))) (resultData rnd false w) (emptyGroup names (a, b, c))) as (g' & E & B & C).
  - apply result_nodup. exact GN.
  - intros k v I. pose proof (assoc_in _ _ _ (result_nodup rnd false w GN) I) as As. destruct (result_shape _ _ _ _ _ As) as [arr ->]. eexists. split; [reflexivity | ]. rewrite map_length, flat_length, Ex by exact G. reflexivity.
  - intros k I. apply empty_assoc. rewrite <- Nms. exact I.
  - rewrite E. cbn [option_map]. eexists. split; [reflexivity | ]. split; [ | intros k K; apply assoc_assign_other; exact K]. exists g'. split; [apply assoc_assign_same | ]. intros k.
    destruct (assoc (resultData rnd false w) k) as [v | ] eqn:Ev; [apply B, assoc_some_in; exact Ev | ]. apply assoc_none in Ev. rewrite C by exact Ev. apply assoc_none. rewrite empty_names, <- Nms. exact Ev.
Qed.
(** ** the list of extents *)
Lemma insertByNum_perm x l : Permutation (insertByNum x l) (x :: l).
Proof. induction l as [|y r IH]; cbn [insertByNum]; [reflexivity | ]. destruct (fst x <=? fst y); [reflexivity | ]. rewrite IH. apply perm_swap. Qed.
Lemma sortByNum_perm l : Permutation (sortByNum l) l.
Proof. induction l as [|x l IH]; [reflexivity | ]. unfold sortByNum in *. cbn [fold_right]. rewrite insertByNum_perm, IH. reflexivity. Qed.
Definition ordered (l : list (Z * ext)) : Prop := StronglySorted (fun x y => fst x <= fst y) l.
Lemma insertByNum_sorted x l : ordered l -> ordered (insertByNum x l).
Proof.
  unfold ordered. induction l as [|y r IH]; cbn [insertByNum]; intros H; [repeat constructor | ]. apply StronglySorted_inv in H. destruct H as [H F]. destruct (Z.leb_spec (fst x) (fst y)) as [L | L].
  - constructor; [constructor; assumption | ]. constructor; [exact L | ]. eapply Forall_impl; [ | exact F]. cbn. intros z Hz. lia.
  - constructor; [apply IH; exact H | ]. apply Forall_forall. intros z I. apply (Permutation_in _ (insertByNum_perm x r)) in I. destruct I as [<- | I]; [lia | ]. rewrite Forall_forall in F. apply F. exact I.
Qed.
Lemma sortByNum_sorted l : ordered (sortByNum l).
Proof. induction l as [|x l IH]; [constructor | ]. apply insertByNum_sorted. exact IH. Qed.
Lemma sorted_unique : forall l1 l2, StronglySorted Z.le l1 -> StronglySorted Z.le l2 -> Permutation l1 l2 -> l1 = l2.
Proof.
  induction l1 as [|a l1 IH]; intros l2 S1 S2 P; [apply Permutation_nil in P; congruence | ]. destruct l2 as [|b l2]; [apply Permutation_sym, Permutation_nil in P; discriminate | ].
  apply StronglySorted_inv in S1. apply StronglySorted_inv in S2. destruct S1 as [S1 F1], S2 as [S2 F2]. rewrite Forall_forall in F1, F2.
  assert (E : a = b). { assert (Ia : In a (b :: l2)) by (apply (Permutation_in a P); left; reflexivity). assert (Ib : In b (a :: l1)) by (apply (Permutation_in b (Permutation_sym P)); left; reflexivity).
    destruct Ia as [-> | Ia]; [reflexivity | ]. destruct Ib as [-> | Ib]; [reflexivity | ]. specialize (F2 _ Ia). specialize (F1 _ Ib). lia. }
  subst b. f_equal. apply IH; [exact S1 | exact S2 | ]. apply Permutation_cons_inv in P. exact P.
Qed.
Lemma seq_sorted n : forall s, StronglySorted Z.le (map Z.of_nat (seq s n)).
Proof. induction n as [|n IH]; intros s; [constructor | ]. cbn [seq map]. constructor; [apply IH | ]. apply Forall_forall. intros z I. apply in_map_iff in I. destruct I as (k & <- & I). apply in_seq in I. lia. Qed.
Lemma sorted_keys l : ordered l -> StronglySorted Z.le (map fst l).
Proof. unfold ordered. induction 1 as [|x l S IH F]; [constructor | ]. cbn [map]. constructor; [exact IH | ]. apply Forall_forall. intros z I. apply in_map_iff in I. destruct I as (y & <- & I). rewrite Forall_forall in F. apply F. exact I. Qed.
(** the ranks hold the blocks the decomposition gives them, and together all blocks 0 .. N-1 *)
Definition spread (blocksForProcs : list (list Z)) (ranks : list (list ioBlock)) : Prop :=
  map (map (fun b => Z.of_N (io_num b))) ranks = blocksForProcs /\ Permutation (concat blocksForProcs) (map Z.of_nat (seq 0 (List.length (concat blocksForProcs)))).
Lemma total_nth procs ranks : spread procs ranks -> List.length (totalNiList procs ranks) = List.length (concat ranks) /\
  forall w, In w (concat ranks) -> nth_error (totalNiList procs ranks) (N.to_nat (io_num w)) = Some (extOf w).
Proof.
  intros [E P]. assert (Ec : concat procs = map (fun b => Z.of_N (io_num b)) (concat ranks)) by (rewrite <- E, concat_map; reflexivity). unfold totalNiList. set (bs := concat ranks) in *. clearbody bs.
  set (l := combine (concat procs) (map extOf bs)). assert (Ll : List.length (concat procs) = List.length (map extOf bs)) by (rewrite Ec, !map_length; reflexivity).
  assert (K : map fst (sortByNum l) = map Z.of_nat (seq 0 (List.length bs))).
  { apply sorted_unique; [apply sorted_keys, sortByNum_sorted | apply seq_sorted | ]. rewrite (Permutation_map fst (sortByNum_perm l)). unfold l. rewrite combine_fst by exact Ll. rewrite P at 1. rewrite Ec, map_length. reflexivity. }
  split; [rewrite map_length; transitivity (List.length l); [apply Permutation_length, sortByNum_perm | ]; unfold l; rewrite combine_length, Ec, !map_length; lia | ].
  intros w I. assert (Iw : In (Z.of_N (io_num w), extOf w) (sortByNum l)).
  { apply (Permutation_in _ (Permutation_sym (sortByNum_perm l))). unfold l. rewrite Ec. clear - I. induction bs as [|b bs IH]; [destruct I | ]. cbn [map combine]. destruct I as [-> | I]; [left; reflexivity | right; auto]. }
  apply In_nth_error in Iw. destruct Iw as [n Hn]. assert (Hk : nth_error (map fst (sortByNum l)) n = Some (Z.of_N (io_num w))) by (rewrite nth_error_map, Hn; reflexivity).
  rewrite K, nth_error_map in Hk. destruct (nth_error (seq 0 (List.length bs)) n) as [x | ] eqn:Ex; [ | discriminate]. cbn [option_map] in Hk. apply some_inj in Hk.
  assert (Ln : (n < List.length bs)%nat) by (rewrite <- (seq_length (List.length bs) 0); apply nth_error_Some; congruence).
  apply nth_error_nth with (d := 0%nat) in Ex. rewrite seq_nth in Ex by exact Ln. replace (N.to_nat (io_num w)) with n by lia. rewrite nth_error_map, Hn. reflexivity.
Qed.
Lemma lumpedFrame_spec species nrt tme : goodNames species -> forall exts, exists f, lumpedFrame species nrt tme exts = Some f /\ assoc f (t "iter") = Some (iterData nrt tme) /\
  forall n a b c, nth_error exts n = Some (a, b, c) -> assoc f (resS (N.of_nat n)) = Some (emptyGroup (solverNames species) (c, b, a)).
Proof.
  intros [NE ND] exts. unfold lumpedFrame.
  assert (X : forall exts s (f0 : h5), assoc f0 (t "iter") = Some (iterData nrt tme) -> (forall n, (s <= n)%nat -> assoc f0 (resS (N.of_nat n)) = None) ->
    exists f, foldM (fun qf '(n, e) => let '(a, b, c) := e in match group (emptyGroup (solverNames species) (c, b, a)) with None => None | Some g => create qf (resS (N.of_nat n)) g end) (combine (seq s (List.length exts)) exts) f0 = Some f /\
    assoc f (t "iter") = Some (iterData nrt tme) /\ (forall n, (n < s)%nat -> assoc f (resS (N.of_nat n)) = assoc f0 (resS (N.of_nat n))) /\
    forall n a b c, nth_error exts n = Some (a, b, c) -> assoc f (resS (N.of_nat (s + n))) = Some (emptyGroup (solverNames species) (c, b, a))).
  { clear exts. induction exts as [|[[a b] c] exts IH]; intros s f0 I F; cbn [List.length seq combine foldM]; [exists f0; split; [reflexivity | split; [exact I | split; [reflexivity | intros [|n] a b c H; discriminate]]] | ].
    rewrite group_ok by (rewrite empty_names; exact ND). destruct (create_ok f0 (resS (N.of_nat s)) (emptyGroup (solverNames species) (c, b, a)) (F s (le_n s))) as [f1 E]. rewrite E. destruct (create_spec _ _ _ _ E) as (_ & C1 & C2).
    destruct (IH (S s) f1) as (f & E' & I' & L' & N').
    { rewrite C2 by (apply not_eq_sym, resS_iter). exact I. }
    { intros n Hn. rewrite C2; [apply F; lia | ]. intros Q. apply resS_inj in Q. lia. }
    exists f. split; [exact E' | ]. split; [exact I' | ]. split.
    - intros n Hn. rewrite L' by lia. apply C2. intros Q. apply resS_inj in Q. lia.
    - intros [|n] a' b' c' H; cbn [nth_error] in H; [apply some_inj in H; injection H as <- <- <-; rewrite Nat.add_0_r, L' by lia; exact C1 | ]. rewrite Nat.add_succ_r. apply N'. exact H. }
  destruct (X exts 0%nat [(t "iter", iterData nrt tme)]) as (f & E & I & _ & H).
  - reflexivity.
  - intros n _. cbn [assoc]. destruct (text_dec (resS (N.of_nat n)) (t "iter")) as [Q | _]; [elim (resS_iter _ Q) | reflexivity].
  - exists f. split; [exact E | ]. split; [exact I | ]. intros n a b c Hn. exact (H n a b c Hn).
Qed.
Lemma fill_all rnd species : forall order (f : h5), NoDup (map io_num order) ->
  (forall w, In w order -> io_species w = species /\ goodNames species /\ goodDims (io_dims w) /\ io_solver w = true /\ assoc f (resS (io_num w)) = Some (emptyGroup (solverNames species) (nk (io_dims w), nj (io_dims w), ni (io_dims w)))) ->
  exists f', foldM (fillBlock rnd) order f = Some f' /\ (forall w, In w order -> holds rnd f' w) /\ (forall k, (forall w, In w order -> k <> resS (io_num w)) -> assoc f' k = assoc f k).
Proof.
  induction order as [|b order IH]; cbn [map foldM]; intros f ND H; [exists f; split; [reflexivity | split; [intros w [] | reflexivity]] | ]. apply NoDup_cons_iff in ND. destruct ND as [N ND].
  destruct (H b (or_introl eq_refl)) as (S1 & GN & G & S & A).
  destruct (fillBlock_spec rnd f b (solverNames species) (nk (io_dims b)) (nj (io_dims b)) (ni (io_dims b))) as (f1 & E & Hb & O); [rewrite S1; reflexivity | rewrite S1; exact GN | exact G | exact S | ring | exact A | ]. rewrite E.
  assert (Dist : forall w, In w order -> resS (io_num w) <> resS (io_num b)) by (intros w Iw Q; apply resS_inj in Q; apply N; rewrite <- Q; apply in_map; exact Iw).
  destruct (IH f1 ND) as (f2 & E2 & H2 & O2).
  { intros w I. destruct (H w (or_intror I)) as (S1' & GN' & G' & S' & A'). split; [exact S1' | ]. split; [exact GN' | ]. split; [exact G' | ]. split; [exact S' | ]. rewrite O by (apply Dist; exact I). exact A'. }
  exists f2. split; [exact E2 | ]. split.
  - intros w [<- | I]; [ | apply H2; exact I]. destruct Hb as (g & Ag & Bg). exists g. split; [ | exact Bg]. rewrite O2; [exact Ag | intros w I; apply not_eq_sym, Dist; exact I].
  - intros k K. rewrite O2; [apply O, K; left; reflexivity | intros w I; apply K; right; exact I].
Qed.
(** The same, written in parallel: however the blocks 0 .. N-1 are spread over the ranks and in whatever order the ranks come to write them *)
Theorem C66_parallel_round_trip : forall rnd lump animate nrt tme species procs ranks order d0, spread procs ranks -> Permutation order (concat ranks) ->
  (forall w, In w order -> io_nrt w = nrt /\ goodDims (io_dims w) /\ io_species w = species /\ io_solver w = true) -> goodNames species ->
  exists d, parallelWriteRestart rnd lump animate nrt tme (totalNiList procs ranks) species order d0 = Some d /\
  forall w r, In w order -> io_num r = io_num w -> io_dims r = io_dims w -> 0 <= io_ng r -> readsBack rnd lump animate nrt tme d w r.
Proof.
  intros rnd lump animate nrt tme species procs ranks order d0 Sp Pe H GN.
  assert (ND : NoDup (map io_num order)).
  { apply (NoDup_map_inv Z.of_N). rewrite map_map. destruct Sp as [E P]. apply (Permutation_NoDup (l := map (fun b => Z.of_N (io_num b)) (concat ranks))); [apply Permutation_map, Permutation_sym; exact Pe | ].
    rewrite concat_map, E. apply (Permutation_NoDup (Permutation_sym P)). apply FinFun.Injective_map_NoDup; [intros x y; lia | apply seq_NoDup]. }
  unfold parallelWriteRestart. destruct lump.
  - destruct (total_nth procs ranks Sp) as [_ Tn]. destruct (lumpedFrame_spec species nrt tme GN (totalNiList procs ranks)) as (f & E & It & Fr). rewrite E.
    destruct (fill_all rnd species order f ND) as (f' & E' & Hh & O).
    { intros w I. destruct (H w I) as (_ & G & S1 & S). split; [exact S1 | ]. split; [exact GN | ]. split; [exact G | ]. split; [exact S | ].
      rewrite <- (N2Nat.id (io_num w)). apply Fr. rewrite N2Nat.id || idtac. apply (Tn w). apply (Permutation_in w Pe). exact I. }
    rewrite E'. eexists. split; [reflexivity | ]. intros w r I N D NG. destruct (H w I) as (_ & G & S1 & S).
    apply (reads_back rnd true animate nrt tme _ f'); auto; [rewrite S1; exact GN | exact (assoc_assign_same d0 (varFileName true animate nrt 0) f') | ]. rewrite O; [exact It | intros w' _; apply not_eq_sym, resS_iter].
  - destruct (single_files (fun qf w => assoc qf (t "iter") = Some (iterData nrt tme) /\ holds rnd qf w) (fun b => match group (emptyGroup (solverNames (io_species b)) (extOf b)) with None => None | Some g => fillBlock rnd [(t "iter", iterData nrt tme); (resS (io_num b), g)] b end) animate nrt order ND) with (d := d0) as (d & E & A & _).
    { intros w I. destruct (H w I) as (N1 & G & S1 & S). split; [exact N1 | ]. rewrite group_ok by (rewrite empty_names, S1; apply GN).
      destruct (fillBlock_spec rnd [(t "iter", iterData nrt tme); (resS (io_num w), emptyGroup (solverNames (io_species w)) (extOf w))] w (solverNames (io_species w)) (ni (io_dims w)) (nj (io_dims w)) (nk (io_dims w))) as (qf & E & Hh & O); auto; [rewrite S1; exact GN | | ].
      - cbn [assoc]. destruct (text_dec (resS (io_num w)) (t "iter")) as [Q | _]; [elim (resS_iter _ Q) | ]. destruct (text_dec (resS (io_num w)) (resS (io_num w))); [reflexivity | congruence].
      - exists qf. split; [exact E | ]. split; [ | exact Hh]. rewrite O by (apply not_eq_sym, resS_iter). reflexivity. }
    assert (Ef : forall l d, foldM (fun d b => match group (emptyGroup (solverNames (io_species b)) (extOf b)) with None => None | Some g => option_map (assign d (varFileName false animate (io_nrt b) (io_num b))) (fillBlock rnd [(t "iter", iterData nrt tme); (resS (io_num b), g)] b) end) l d =
      foldM (fun d b => option_map (assign d (varFileName false animate (io_nrt b) (io_num b))) (match group (emptyGroup (solverNames (io_species b)) (extOf b)) with None => None | Some g => fillBlock rnd [(t "iter", iterData nrt tme); (resS (io_num b), g)] b end)) l d).
    { induction l as [|b l IH]; intros d1; [reflexivity | ]. cbn [foldM]. destruct (group _); [ | reflexivity]. cbn [option_map]. destruct (option_map _ _); [apply IH | reflexivity]. }
    rewrite Ef. exists d. split; [exact E | ]. intros w r I N D NG. destruct (H w I) as (_ & G & S1 & S). destruct (A w I) as (qf & F & It & Hh). apply (reads_back rnd false animate nrt tme d qf); auto. rewrite S1. exact GN.
Qed.
