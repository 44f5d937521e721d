(** Lemmas about the parallel output of single arrays. *)
From Coq Require Import Reals ZArith NArith String Ascii List Bool Lia Permutation.
From Verif Require Import M_Topology M_Halo M_Grid M_Metrics M_Procs L_Procs M_Io S_Io L_Io L_Io2 P_Io2 P_Io3 M_Arbitrary S_Arbitrary L_Arbitrary.
Import ListNotations.
Open Scope Z_scope.

Lemma fillArr_ok rnd name b a : 1 <= io_ng b -> goodDims (io_dims b) -> perCell b a -> forall n s g, (s + n <= parts a)%nat ->
  (forall c, (s <= c < s + n)%nat -> exists old, assoc g (partName name a c) = Some (DArr old) /\ List.length old = shownSize false b) ->
  exists g', fillArr rnd (io_ng b) (isFour a) a (map (fun c => (c, partName name a c)) (seq s n)) g = Some g' /\
    (forall c, (s <= c < s + n)%nat -> assoc g' (partName name a c) = Some (DArr (map rnd (cellsList false b a c)))) /\ (forall k, (forall c, (s <= c < s + n)%nat -> k <> partName name a c) -> assoc g' k = assoc g k).
Proof.
  intros G D P. induction n as [|n IH]; intros s g L H; cbn [seq map fillArr]; [exists g; split; [reflexivity | split; [intros c Hc; lia | reflexivity]] | ].
  destruct (H s ltac:(lia)) as (old & A & O). rewrite A, (slice_ok false b) by (auto; lia). assert (O' : fitTo (List.length old) (cellsList false b a s) = Some (cellsList false b a s)). { rewrite O, <- (cellsList_length false b a s) by (auto; lia). apply fitTo_same. } rewrite O'.
  destruct (IH (S s) (assign g (partName name a s) (DArr (map rnd (cellsList false b a s)))) ltac:(lia)) as (g' & E & B & C).
  { intros c Hc. rewrite assoc_assign_other by (intros Q; apply partName_inj in Q; lia). apply H. lia. }
  exists g'. split; [exact E | ]. split.
  - intros c Hc. destruct (Nat.eq_dec c s) as [-> | Ne]; [ | apply B; lia]. rewrite C by (intros c' Hc' Q; apply partName_inj in Q; lia). apply assoc_assign_same.
  - intros k K. rewrite C by (intros c Hc; apply K; lia). apply assoc_assign_other. apply K. lia.
Qed.
Lemma names_comps name a a' : a_comps a = a_comps a' -> arrNames name a = arrNames name a'. Proof. unfold arrNames. intros ->. reflexivity. Qed.
Lemma fillArrBlock_ok rnd name (qf : h5) first b a n1 n2 n3 : 1 <= io_ng (ab_io b) -> goodDims (io_dims (ab_io b)) -> ab_array b name = Some a -> perCell (ab_io b) a -> a_comps first = a_comps a ->
  (n1 - 1) * (n2 - 1) * (n3 - 1) = (ni (io_dims (ab_io b)) - 1) * (nj (io_dims (ab_io b)) - 1) * (nk (io_dims (ab_io b)) - 1) -> assoc qf (resS (numOf b)) = Some (emptyGroup (arrNames name a) (n1, n2, n3)) ->
  exists qf', fillArrBlock rnd name qf (first, b) = Some qf' /\ holdsA rnd false name qf' (ab_io b) a /\ forall k, k <> resS (numOf b) -> assoc qf' k = assoc qf k.
Proof.
  intros G D A P C Ex F. unfold fillArrBlock. rewrite A, F. rewrite (names_comps name first a C), numbered_parts. replace (isFour first) with (isFour a) by (unfold isFour; rewrite C; reflexivity).
  destruct (fillArr_ok rnd name (ab_io b) a G D P (parts a) 0%nat (emptyGroup (arrNames name a) (n1, n2, n3)) ltac:(lia)) as (g' & E & B & _).
  - intros c Hc. destruct (empty_assoc (arrNames name a) n1 n2 n3 (partName name a c)) as (old & E & L); [rewrite arrNames_parts; apply in_map; apply in_seq; lia | ]. exists old. split; [exact E | ]. rewrite L, Ex. reflexivity.
  - rewrite E. cbn [option_map]. eexists. split; [reflexivity | ]. split; [ | intros k K; apply assoc_assign_other; exact K]. exists g'. split; [apply assoc_assign_same | ]. intros c L. apply B. lia.
Qed.
Lemma arrFrame_spec names nrt tme : NoDup names -> forall exts, exists f, arrFrame names nrt tme exts = Some f /\ assoc f (t "iter") = Some (iterData nrt tme) /\
  forall n a b c, nth_error exts n = Some (a, b, c) -> assoc f (resS (N.of_nat n)) = Some (emptyGroup names (c, b, a)).
Proof.
  intros ND exts. unfold arrFrame.
  assert (X : forall exts s (f0 : h5), assoc f0 (t "iter") = Some (iterData nrt tme) -> (forall n, (s <= n)%nat -> assoc f0 (resS (N.of_nat n)) = None) ->
    exists f, foldM (fun qf '(n, e) => let '(a, b, c) := e in match group (emptyGroup names (c, b, a)) with None => None | Some g => create qf (resS (N.of_nat n)) g end) (combine (seq s (List.length exts)) exts) f0 = Some f /\
    assoc f (t "iter") = Some (iterData nrt tme) /\ (forall n, (n < s)%nat -> assoc f (resS (N.of_nat n)) = assoc f0 (resS (N.of_nat n))) /\
    forall n a b c, nth_error exts n = Some (a, b, c) -> assoc f (resS (N.of_nat (s + n))) = Some (emptyGroup names (c, b, a))).
  { clear exts. induction exts as [|[[a b] c] exts IH]; intros s f0 I F; cbn [List.length seq combine foldM]; [exists f0; split; [reflexivity | split; [exact I | split; [reflexivity | intros [|n] a b c H; discriminate]]] | ].
    rewrite group_ok by (rewrite empty_names; exact ND). destruct (create_ok f0 (resS (N.of_nat s)) (emptyGroup names (c, b, a)) (F s (le_n s))) as [f1 E]. rewrite E. destruct (create_spec _ _ _ _ E) as (_ & C1 & C2).
    destruct (IH (S s) f1) as (f & E' & I' & L' & N').
    { rewrite C2 by (apply not_eq_sym, resS_iter). exact I. }
    { intros n Hn. rewrite C2; [apply F; lia | ]. intros Q. apply resS_inj in Q. lia. }
    exists f. split; [exact E' | ]. split; [exact I' | ]. split.
    - intros n Hn. rewrite L' by lia. apply C2. intros Q. apply resS_inj in Q. lia.
    - intros [|n] a' b' c' H; cbn [nth_error] in H; [apply some_inj in H; injection H as <- <- <-; rewrite Nat.add_0_r, L' by lia; exact C1 | ]. rewrite Nat.add_succ_r. apply N'. exact H. }
  destruct (X exts 0%nat [(t "iter", iterData nrt tme)]) as (f & E & I & _ & H).
  - reflexivity.
  - intros n _. cbn [assoc]. destruct (text_dec (resS (N.of_nat n)) (t "iter")) as [Q | _]; [elim (resS_iter _ Q) | reflexivity].
  - exists f. split; [exact E | ]. split; [exact I | ]. intros n a b c Hn. exact (H n a b c Hn).
Qed.
Notation taskNum x := (numOf (snd x)).
Lemma fill_tasks rnd name names : forall order (f : h5), NoDup (map (fun x => taskNum x) order) ->
  (forall first b, In (first, b) order -> exists a, 1 <= io_ng (ab_io b) /\ goodDims (io_dims (ab_io b)) /\ ab_array b name = Some a /\ perCell (ab_io b) a /\ a_comps first = a_comps a /\ names = arrNames name a /\
     assoc f (resS (numOf b)) = Some (emptyGroup names (nk (io_dims (ab_io b)), nj (io_dims (ab_io b)), ni (io_dims (ab_io b))))) ->
  exists f', foldM (fillArrBlock rnd name) order f = Some f' /\ (forall first b a, In (first, b) order -> ab_array b name = Some a -> holdsA rnd false name f' (ab_io b) a) /\
    (forall k, (forall x, In x order -> k <> resS (taskNum x)) -> assoc f' k = assoc f k).
Proof.
  induction order as [|[fi b] order IH]; cbn [map foldM]; intros f ND H; [exists f; split; [reflexivity | split; [intros fi b a [] | reflexivity]] | ]. apply NoDup_cons_iff in ND. destruct ND as [N ND]. cbn [snd] in N.
  destruct (H fi b (or_introl eq_refl)) as (a & G & D & A & P & C & Nm & F). rewrite Nm in F.
  destruct (fillArrBlock_ok rnd name f fi b a (nk (io_dims (ab_io b))) (nj (io_dims (ab_io b))) (ni (io_dims (ab_io b))) G D A P C ltac:(ring) F) as (f1 & E & Hb & O). rewrite E.
  assert (Dist : forall x, In x order -> resS (taskNum x) <> resS (numOf b)) by (intros x Ix Q; apply resS_inj in Q; apply N; rewrite <- Q; apply (in_map (fun x => taskNum x)); exact Ix).
  destruct (IH f1 ND) as (f2 & E2 & H2 & O2).
  { intros fi' b' I. destruct (H fi' b' (or_intror I)) as (a' & X1 & X2 & X3 & X4 & X5 & X6 & X7). exists a'. do 6 (split; [assumption | ]). rewrite O by (exact (Dist (fi', b') I)). exact X7. }
  exists f2. split; [exact E2 | ]. split.
  - intros fi' b' a' [Q | I] A'; [ | exact (H2 fi' b' a' I A')]. injection Q as <- <-. assert (a' = a) by congruence. subst a'. destruct Hb as (g & Ag & Bg). exists g. split; [ | exact Bg]. rewrite O2; [exact Ag | intros x I; apply not_eq_sym, Dist; exact I].
  - intros k K. rewrite O2; [apply O; exact (K (fi, b) (or_introl eq_refl)) | intros x I; apply K; right; exact I].
Qed.
(** the tasks of all ranks are the blocks of all ranks *)
Lemma rank_tasks name rank : rank <> [] -> (forall b, In b rank -> exists a, ab_array b name = Some a) -> exists first tk, rankTasks name rank = Some tk /\ tk = map (fun b => (first, b)) rank /\ exists b, In b rank /\ ab_array b name = Some first.
Proof. destruct rank as [|b r]; intros NE H; [congruence | ]. destruct (H b (or_introl eq_refl)) as [a A]. cbn [rankTasks]. rewrite A. exists a. eexists. split; [reflexivity | ]. split; [reflexivity | ]. exists b. split; [left; reflexivity | exact A]. Qed.
Lemma all_tasks name ranks : (forall r, In r ranks -> r <> []) -> (forall b, In b (concat ranks) -> exists a, ab_array b name = Some a) ->
  exists tk, allTasks name ranks = Some tk /\ map snd tk = concat ranks /\ forall first b, In (first, b) tk -> exists b', In b' (concat ranks) /\ ab_array b' name = Some first.
Proof.
  unfold allTasks. induction ranks as [|r ranks IH]; intros NE H; [exists []; split; [reflexivity | split; [reflexivity | intros f b []]] | ].
  destruct (rank_tasks name r) as (first & tk0 & E0 & T0 & b0 & I0 & A0); [apply NE; left; reflexivity | intros b I; apply H; cbn [concat]; apply in_or_app; left; exact I | ].
  destruct IH as (tk & E & M & F); [intros r' I; apply NE; right; exact I | intros b I; apply H; cbn [concat]; apply in_or_app; right; exact I | ].
  cbn [mapM]. rewrite E0. destruct (mapM (rankTasks name) ranks) as [l | ] eqn:El; [ | discriminate]. cbn [option_map] in *. apply some_inj in E. subst tk. exists (tk0 ++ concat l). split; [reflexivity | ]. split.
  - rewrite map_app, M, T0, map_map. cbn [snd concat]. rewrite map_id. reflexivity.
  - intros fi b I. apply in_app_or in I. destruct I as [I | I].
    + rewrite T0 in I. apply in_map_iff in I. destruct I as (x & Q & _). injection Q as <- <-. exists b0. split; [cbn [concat]; apply in_or_app; left; exact I0 | exact A0].
    + destruct (F fi b I) as (b' & I' & A'). exists b'. split; [cbn [concat]; apply in_or_app; right; exact I' | exact A'].
Qed.
