(** Lemmas about the output of single arrays. *)
From Coq Require Import Reals ZArith NArith String Ascii List Bool Lia Permutation.
From Verif Require Import M_Topology M_Halo M_Grid M_Metrics M_Procs L_Procs M_Io S_Io L_Io L_Io2 P_Io2 P_Io3 M_Arbitrary S_Arbitrary.
Import ListNotations.
Open Scope Z_scope.

(** ** names *)
Lemma arrNames_parts name a : arrNames name a = map (partName name a) (seq 0 (parts a)).
Proof. unfold arrNames, partName, parts. destruct (a_comps a) as [n | ]; reflexivity. Qed.
Lemma partName_inj name a c c' : (c < parts a)%nat -> (c' < parts a)%nat -> partName name a c = partName name a c' -> c = c'.
Proof.
  unfold partName, parts. destruct (a_comps a) as [n | ]; intros A B E; [ | lia]. apply app_inv_head in E. apply app_inv_head in E. apply printN_inj in E. lia.
Qed.
Lemma combine_map_self {A B} (f : A -> B) l : combine l (map f l) = map (fun x => (x, f x)) l.
Proof. induction l as [|x l IH]; [reflexivity | ]. cbn [map combine]. rewrite IH. reflexivity. Qed.
Lemma numbered_parts name a : numbered (arrNames name a) = map (fun c => (c, partName name a c)) (seq 0 (parts a)).
Proof. unfold numbered. rewrite arrNames_parts, map_length, seq_length. apply combine_map_self. Qed.
Lemma parts_nodup name a : NoDup (map (partName name a) (seq 0 (parts a))).
Proof.
  assert (X : forall n s, (s + n <= parts a)%nat -> NoDup (map (partName name a) (seq s n))); [ | apply X; lia].
  induction n as [|n IH]; intros s L; [constructor | ]. cbn [seq map]. constructor; [ | apply IH; lia]. intros I. apply in_map_iff in I. destruct I as (c & E & I). apply in_seq in I. apply partName_inj in E; lia.
Qed.
(** ** values *)
Definition cellsList (wh : bool) (b : ioBlock) (a : arr) (c : nat) : list R :=
  ravelF (shown wh b (ni (io_dims b))) (shown wh b (nj (io_dims b))) (shown wh b (nk (io_dims b))) (firstShown wh b) (fun x y z => a_val a x y z (Z.of_nat c)).
Definition shownSize (wh : bool) (b : ioBlock) : nat := Z.to_nat (shown wh b (ni (io_dims b)) * shown wh b (nj (io_dims b)) * shown wh b (nk (io_dims b))).
Lemma shown_nonneg wh b n : 0 <= io_ng b -> 2 <= n -> 0 <= shown wh b n. Proof. unfold shown. destruct wh; lia. Qed.
Lemma cellsList_length wh b a c : 0 <= io_ng b -> goodDims (io_dims b) -> List.length (cellsList wh b a c) = shownSize wh b.
Proof. intros G (A & B & C). unfold cellsList, shownSize. apply ravelF_length; apply shown_nonneg; assumption. Qed.
Lemma extent_is wh b : arrExtent wh b = shownSize wh (ab_io b).
Proof. unfold arrExtent, shownSize, arrHalo, shown. destruct wh; f_equal; ring. Qed.
Lemma slice_ok wh b a four c : 1 <= io_ng b -> goodDims (io_dims b) -> perCell b a -> four = isFour a -> (c < parts a)%nat -> sliceF wh (io_ng b) four a c = Some (cellsList wh b a c).
Proof.
  intros G (A & B & C) P -> L. unfold sliceF. rewrite P. 
  assert (E : forall n, 2 <= n -> (if wh then n - 1 + 2 * io_ng b else inner (io_ng b) (n - 1 + 2 * io_ng b)) = shown wh b n).
  { intros n Hn. unfold shown, inner. destruct wh; [reflexivity | ]. destruct (Z.eqb_spec (io_ng b) 0); lia. }
  cbv beta zeta. rewrite !E by assumption. fold (firstShown wh b). unfold parts in L. unfold isFour. destruct (a_comps a) as [n | ]; [ | reflexivity]. destruct (Nat.ltb_spec c n); [reflexivity | lia].
Qed.
Lemma fitTo_same l : fitTo (List.length l) l = Some l. Proof. unfold fitTo. rewrite Nat.eqb_refl. reflexivity. Qed.
Lemma mapM_map {A B C} (f : B -> option C) (g : A -> B) (h : A -> C) l : (forall x, In x l -> f (g x) = Some (h x)) -> mapM f (map g l) = Some (map h l).
Proof. induction l as [|x l IH]; intros H; [reflexivity | ]. cbn [map mapM]. rewrite H by (left; reflexivity). rewrite IH by (intros; apply H; right; assumption). reflexivity. Qed.
Definition entries (rnd : R -> R) (wh : bool) (name : text) (b : ioBlock) (a : arr) : list (text * data) :=
  map (fun c => (partName name a c, DArr (map rnd (cellsList wh b a c)))) (seq 0 (parts a)).
Lemma entries_names rnd wh name b a : map fst (entries rnd wh name b a) = map (partName name a) (seq 0 (parts a)).
Proof. unfold entries. rewrite map_map. reflexivity. Qed.
Lemma entries_assoc rnd wh name b a c : (c < parts a)%nat -> assoc (entries rnd wh name b a) (partName name a c) = Some (DArr (map rnd (cellsList wh b a c))).
Proof.
  intros L. apply assoc_in; [rewrite entries_names; apply parts_nodup | ]. unfold entries. apply in_map_iff. exists c. split; [reflexivity | apply in_seq; lia].
Qed.
Lemma arrData_ok rnd wh name b a : 1 <= io_ng (ab_io b) -> goodDims (io_dims (ab_io b)) -> perCell (ab_io b) a -> arrData rnd wh name b a = Some (entries rnd wh name (ab_io b) a).
Proof.
  intros G D P. unfold arrData, entries. rewrite numbered_parts. apply mapM_map. intros c I. apply in_seq in I. rewrite (slice_ok wh (ab_io b)) by (auto; lia).
  rewrite extent_is, <- (cellsList_length wh (ab_io b) a c) by (auto; lia). rewrite fitTo_same. reflexivity.
Qed.
(** ** blocks in files *)
Definition holdsA (rnd : R -> R) (wh : bool) (name : text) (qf : h5) (b : ioBlock) (a : arr) : Prop :=
  exists g, assoc qf (resS (io_num b)) = Some g /\ forall c, (c < parts a)%nat -> assoc g (partName name a c) = Some (DArr (map rnd (cellsList wh b a c))).
Lemma writeArrBlock_ok rnd wh name (qf : h5) b a nrt tme : io_nrt (ab_io b) = nrt -> io_tme (ab_io b) = tme -> 1 <= io_ng (ab_io b) -> goodDims (io_dims (ab_io b)) -> ab_array b name = Some a -> perCell (ab_io b) a ->
  assoc qf (resS (io_num (ab_io b))) = None -> (assoc qf (t "iter") = None \/ assoc qf (t "iter") = Some (iterData nrt tme)) ->
  exists qf', writeArrBlock rnd wh name qf b = Some qf' /\ assoc qf' (t "iter") = Some (iterData nrt tme) /\ holdsA rnd wh name qf' (ab_io b) a /\ forall k, k <> t "iter" -> k <> resS (io_num (ab_io b)) -> assoc qf' k = assoc qf k.
Proof.
  intros <- <- G D A P N I. unfold writeArrBlock. rewrite A, arrData_ok by assumption. rewrite group_ok by (rewrite entries_names; apply parts_nodup). destruct (withIter_spec qf _ _ I) as [W1 W2].
  destruct (create_ok (withIter qf (io_nrt (ab_io b)) (io_tme (ab_io b))) (resS (io_num (ab_io b))) (entries rnd wh name (ab_io b) a)) as [q2 E2]; [rewrite W2 by apply resS_iter; exact N | ]. rewrite E2.
  destruct (create_spec _ _ _ _ E2) as (_ & C1 & C2). exists q2. split; [reflexivity | ]. split; [rewrite C2 by (apply not_eq_sym, resS_iter); exact W1 | ].
  split; [exists (entries rnd wh name (ab_io b) a); split; [exact C1 | intros c L; apply entries_assoc; exact L] | ]. intros k K1 K2. rewrite C2, W2 by assumption. reflexivity.
Qed.
Definition okBlock (name : text) (nrt : N) (b : arrBlock) (a : arr) : Prop := io_nrt (ab_io b) = nrt /\ 1 <= io_ng (ab_io b) /\ goodDims (io_dims (ab_io b)) /\ ab_array b name = Some a /\ perCell (ab_io b) a.
Notation numOf b := (io_num (ab_io b)).
Lemma lump_arr rnd wh name nrt tme mb : NoDup (map (fun b => numOf b) mb) -> (forall b, In b mb -> io_tme (ab_io b) = tme /\ exists a, okBlock name nrt b a) -> forall qf : h5,
  (assoc qf (t "iter") = None \/ assoc qf (t "iter") = Some (iterData nrt tme)) -> (forall b, In b mb -> assoc qf (resS (numOf b)) = None) ->
  exists qf', foldM (writeArrBlock rnd wh name) mb qf = Some qf' /\ (mb <> [] -> assoc qf' (t "iter") = Some (iterData nrt tme)) /\ (forall b a, In b mb -> ab_array b name = Some a -> holdsA rnd wh name qf' (ab_io b) a) /\
  (forall k, k <> t "iter" -> (forall b, In b mb -> k <> resS (numOf b)) -> assoc qf' k = assoc qf k).
Proof.
  induction mb as [|b mb IH]; cbn [map foldM]; intros ND H qf I F; [exists qf; split; [reflexivity | split; [congruence | split; [intros b a [] | reflexivity]]] | ]. apply NoDup_cons_iff in ND. destruct ND as [N ND].
  destruct (H b (or_introl eq_refl)) as (T & a & Nr & G & D & A & P). destruct (writeArrBlock_ok rnd wh name qf b a nrt tme Nr T G D A P (F b (or_introl eq_refl)) I) as (q1 & E & I1 & H1 & O1). rewrite E.
  assert (Dist : forall w, In w mb -> resS (numOf w) <> resS (numOf b)) by (intros w Iw Q; apply resS_inj in Q; apply N; rewrite <- Q; apply (in_map (fun b => numOf b)); exact Iw).
  destruct (IH ND (fun w Iw => H w (or_intror Iw)) q1 (or_intror I1)) as (q2 & E2 & I2 & H2 & O2).
  { intros w Iw. rewrite O1; [apply F; right; exact Iw | apply resS_iter | apply Dist; exact Iw]. }
  exists q2. split; [exact E2 | ]. split; [ | split].
  - intros _. destruct mb as [|b2 mb]; [cbn [foldM] in E2; apply some_inj in E2; subst q2; exact I1 | apply I2; discriminate].
  - intros w a' [<- | Iw] A'; [ | exact (H2 w a' Iw A')]. assert (a' = a) by congruence. subst a'. destruct H1 as (g & A1 & B). exists g. split; [ | exact B]. rewrite O2; [exact A1 | apply resS_iter | intros w Iw; apply not_eq_sym, Dist; exact Iw].
  - intros k K1 K2. rewrite O2; [apply O1; [exact K1 | apply K2; left; reflexivity] | exact K1 | intros w Iw; apply K2; right; exact Iw].
Qed.
(** ** one file per block *)
Lemma each_file {B} (num : B -> N) (fn : N -> text) (file : B -> option h5) (P : h5 -> B -> Prop) : (forall n m, fn n = fn m -> n = m) -> forall l, NoDup (map num l) -> (forall b, In b l -> exists qf, file b = Some qf /\ P qf b) -> forall d : disk,
  exists d', foldM (fun d b => option_map (assign d (fn (num b))) (file b)) l d = Some d' /\ (forall b, In b l -> exists qf, assoc d' (fn (num b)) = Some qf /\ P qf b) /\
  (forall f, (forall b, In b l -> f <> fn (num b)) -> assoc d' f = assoc d f).
Proof.
  intros Inj. induction l as [|b l IH]; cbn [map foldM]; intros ND F d; [exists d; split; [reflexivity | split; [intros b [] | reflexivity]] | ]. apply NoDup_cons_iff in ND. destruct ND as [N ND].
  destruct (F b (or_introl eq_refl)) as (qf & E & Pb). rewrite E. cbn [option_map]. destruct (IH ND (fun w I => F w (or_intror I)) (assign d (fn (num b)) qf)) as (d' & E' & A & O). exists d'. split; [exact E' | ]. split.
  - intros w [<- | I]; [exists qf; split; [ | exact Pb] | apply A; exact I]. rewrite O; [apply assoc_assign_same | ]. intros w I Q. apply Inj in Q. apply N. rewrite Q. apply in_map. exact I.
  - intros f Hf. rewrite O by (intros w I; apply Hf; right; exact I). apply assoc_assign_other. apply Hf. left. reflexivity.
Qed.
Lemma foldM_ext {A B} (f g : A -> B -> option A) l : (forall a b, In b l -> f a b = g a b) -> forall a, foldM f l a = foldM g l a.
Proof. induction l as [|b l IH]; intros H a; [reflexivity | ]. cbn [foldM]. rewrite (H a b (or_introl eq_refl)). destruct (g a b); [apply IH; intros; apply H; right; assumption | reflexivity]. Qed.
Lemma arrFileName_inj name a nrt n m : arrFileName name false a nrt n = arrFileName name false a nrt m -> n = m.
Proof.
  unfold arrFileName. destruct a; intros H; apply app_inv_head in H; apply app_inv_head in H; [apply app_inv_head in H; apply app_inv_head in H | ]; apply app_inv_tail in H; apply (padded_inj 6); exact H.
Qed.
Lemma arrFile_of name lump a nrt n : ofArray name (arrFileName name lump a nrt n).
Proof. unfold ofArray, arrFileName. destruct lump, a; eexists; cbn [t list_ascii_of_string app]; reflexivity. Qed.
Lemma arr_location name lump animate nrt num var : arrLocation name lump animate nrt num var = arrFileName name lump animate nrt num ++ t ":/" ++ resS num ++ t "/" ++ var.
Proof. unfold arrLocation, arrFileName, resS. destruct lump, animate; rewrite <- ?app_assoc; reflexivity. Qed.
(** ** the XDMF entry *)
Lemma grid_shows rnd (wh : bool) name lump animate nrt tme (d : disk) (qf : h5) b a h : 1 <= io_ng b -> goodDims (io_dims b) -> h = (if wh then io_ng b else 0) -> assoc d (arrFileName name lump animate nrt (io_num b)) = Some qf -> holdsA rnd wh name qf b a ->
  forall names, names = arrNames name a -> gridShows rnd wh d b name a (xdmfArrBlock name lump animate nrt tme names (io_num b) (extOf b) h).
Proof.
  intros G D Hh A (g & Hg & Hc) names ->. unfold gridShows, xdmfArrBlock, extOf. cbn [xg_num xg_topo xg_scalars].
  assert (S : forall n, n + 2 * h - 1 = shown wh b n) by (intros n; unfold shown; rewrite Hh; destruct wh; ring). assert (S1 : forall n, n + 2 * h = shown wh b n + 1) by (intros n; rewrite <- S; ring).
  split; [reflexivity | ]. split; [rewrite !S1; reflexivity | ]. split; [rewrite map_length, arrNames_parts, map_length, seq_length; reflexivity | ]. intros c L.
  eexists. split; [rewrite nth_error_map, arrNames_parts, nth_error_map; rewrite (nth_error_nth' _ 0%nat) by (rewrite seq_length; exact L); rewrite seq_nth by exact L; reflexivity | ].
  cbn [Nat.add]. destruct D as (D1 & D2 & D3). assert (G0 : 0 <= io_ng b) by lia. pose proof (shown_nonneg wh b _ G0 D1) as N1. pose proof (shown_nonneg wh b _ G0 D2) as N2. pose proof (shown_nonneg wh b _ G0 D3) as N3.
  unfold itemShows. cbv zeta. exists (arrFileName name lump animate nrt (io_num b)), (resS (io_num b)), qf, g, (map rnd (cellsList wh b a c)). cbn [x_loc x_dims].
  split; [apply arr_location | ]. split; [exact A | ]. split; [exact Hg | ]. split; [apply Hc; exact L | ]. split; [rewrite !S; reflexivity | ]. split; [rewrite map_length; unfold cellsList; apply ravelF_length; assumption | ].
  intros i j k Hi Hj Hk. unfold cellsList. set (m1 := shown wh b (ni (io_dims b))) in *. set (m2 := shown wh b (nj (io_dims b))) in *. set (m3 := shown wh b (nk (io_dims b))) in *.
  assert (Q : j + m2 * k <= m2 * m3 - 1) by nia. assert (Q1 : 0 <= j + m2 * k) by nia. assert (Q2 : m1 * (j + m2 * k) <= m1 * (m2 * m3 - 1)) by (apply Z.mul_le_mono_nonneg_l; lia). assert (Q3 : 0 <= m1 * (j + m2 * k)) by nia.
  rewrite (nth_indep _ 0%R (rnd 0%R)) by (rewrite map_length, ravelF_length by assumption; apply Z2Nat.inj_lt; lia). rewrite map_nth, ravelF_nth by assumption. reflexivity.
Qed.
