(** C66 (examples, interruptions), C67, C68, C98, C99, C100. *)
From Coq Require Import Reals ZArith NArith String Ascii List Bool Lia Lra Permutation Sorted.
From Verif Require Import M_Topology M_Halo M_Grid M_Metrics M_Procs L_Procs S_Procs P_Procs M_Io S_Io L_Io L_Io2 P_Io2.
Import ListNotations.
Open Scope Z_scope.

(** * C67 *)
Lemma fillHalo_nearest d ng q i j k l : 1 <= ng -> goodDims d -> fillHalo d ng q i j k l = q (nearest ng (ni d) i) (nearest ng (nj d) j) (nearest ng (nk d) k) l.
Proof.
  intros G (A & B & C). unfold fillHalo, nearest. cbv zeta beta.
  repeat match goal with |- context [?a <=? ?b] => destruct (Z.leb_spec a b) | |- context [?a <? ?b] => destruct (Z.ltb_spec a b) end; try lia; f_equal; lia.
Qed.
Lemma nearest_closest ng n i : 2 <= n -> closest ng n i (nearest ng n i).
Proof. intros H. unfold closest, nearest. split; [lia | ]. intros c' Hc. lia. Qed.
Lemma nearest_fixed ng n c : ng <= c < ng + (n - 1) -> nearest ng n c = c.
Proof. unfold nearest. lia. Qed.
(** After any restart is read into a solver block, whatever the file holds, every value of every variable - in the halo, its edges and corners too - is that of the interior cell
    closest to it along each axis *)
Theorem C67_halo_nearest : forall lump animate nrt d r r', readRestartBlock lump animate nrt d r = Some r' -> io_solver r = true -> 1 <= io_ng r -> goodDims (io_dims r) ->
  forall i j k m ci cj ck, closest (io_ng r) (ni (io_dims r)) i ci -> closest (io_ng r) (nj (io_dims r)) j cj -> closest (io_ng r) (nk (io_dims r)) k ck ->
  io_q r' i j k m = io_q r' ci cj ck m.
Proof.
  intros lump animate nrt d r r' E S NG G i j k m ci cj ck Ci Cj Ck. unfold readRestartBlock in E. destruct (assoc d _) as [qf | ]; [ | discriminate]. destruct (getInt _); [ | discriminate]. destruct (getReal _); [ | discriminate]. destruct (foldM _ _ _) as [q | ]; [ | discriminate].
  apply some_inj in E. subst r'. cbn [io_q]. rewrite S. rewrite !fillHalo_nearest by assumption. destruct G as (G1 & G2 & G3).
  assert (U : forall n x c, 2 <= n -> closest (io_ng r) n x c -> nearest (io_ng r) n x = nearest (io_ng r) n c).
  { intros n x c Hn [Hc Hm]. rewrite (nearest_fixed _ _ c Hc). pose proof (Hm (nearest (io_ng r) n x) ltac:(unfold nearest; lia)) as L. unfold nearest in *. lia. }
  rewrite (U _ _ _ G1 Ci), (U _ _ _ G2 Cj), (U _ _ _ G3 Ck). reflexivity.
Qed.
(** no value is left unset: the index is in the array or not, a closest interior cell exists *)
Theorem C67_closest_exists : forall ng n i, 2 <= n -> exists c, closest ng n i c.
Proof. intros ng n i H. exists (nearest ng n i). apply nearest_closest. exact H. Qed.

(** * C66: a concrete restart *)
Definition exIo : ioBlock := mkIo 3 (mkDims 3 2 2) true 1 (fun c i j k => IZR (c + i)) (fun i j k m => IZR (100 * m + i)) (fun _ _ _ => 1%R) [t "CH4"; t "O2"; t "N2"] 40 (1 / 2)%R.
Lemma exIo_names : goodNames (io_species exIo).
Proof. split; [discriminate | ]. cbn. repeat constructor; cbn; intuition discriminate. Qed.
Example C66_nonvacuous : exists d r', writeRestart (fun x => x) false true true 40 [exIo] [] = Some d /\
  readRestartBlock true true 40 d (mkIo 3 (mkDims 3 2 2) true 2 (io_xyz exIo) (fun _ _ _ _ => 0%R) (io_rho exIo) [t "N2"; t "O2"; t "H2"; t "CH4"] 0 0) = Some r' /\
  io_nrt r' = 40%N /\ cellVar r' 2 1 0 0 = 202%R /\ cellVar r' 6 1 0 0 = 602%R /\ cellVar r' 5 1 0 0 = (1 - (502 + (602 + 0)))%R /\ cellVar r' 7 1 0 0 = 0%R.
Proof.
  destruct (C66_restart_round_trip (fun x => x) true true 40 (1 / 2)%R [exIo] []) as (d & E & H).
  - repeat constructor. intros [].
  - intros w [<- | []]. split; [reflexivity | ]. split; [reflexivity | ]. split; [unfold goodDims; cbn [io_dims exIo ni nj nk]; lia | exact exIo_names].
  - set (r := mkIo 3 (mkDims 3 2 2) true 2 (io_xyz exIo) (fun _ _ _ _ => 0%R) (io_rho exIo) [t "N2"; t "O2"; t "H2"; t "CH4"] 0 0).
    destruct (H exIo r (or_introl eq_refl) eq_refl eq_refl) as (r' & R & A1 & A2 & A3 & A4 & A5 & A6 & V); [cbn; lia | ]. exists d, r'. split; [exact E | ]. split; [exact R | ]. split; [exact A5 | ].
    assert (C : isCell (io_dims exIo) 1 0 0) by (cbn; unfold isCell; cbn; lia). pose proof (fun m name Hm => V 1 0 0 C m name Hm) as W. rewrite A4 in W. split; [ | split; [ | split]].
    + destruct (W 2%nat (t "v") eq_refl) as (W1 & _ & _). exact (W1 2%nat eq_refl).
    + destruct (W 6%nat (t "O2") eq_refl) as (W1 & _ & _). exact (W1 6%nat eq_refl).
    + destruct (W 5%nat (t "N2") eq_refl) as (_ & W2 & _). exact (W2 eq_refl).
    + destruct (W 7%nat (t "H2") eq_refl) as (_ & _ & W3). apply W3. vm_compute. intuition discriminate.
Qed.

(** * C68 *)
Lemma speciesSum_fractions ns q i j k : speciesSum ns q i j k = fractionSum ns q i j k.
Proof.
  unfold speciesSum, fractionSum, upto. replace (Z.to_nat (Z.of_nat ns - 1)) with (ns - 1)%nat by lia. generalize (ns - 1)%nat. intros n.
  assert (X : forall s : nat, fold_right (fun (c : Z) (r : R) => Rplus (q i j k (5 + c)) r) 0%R (map Z.of_nat (seq s n)) = fold_right Rplus 0%R (map (fun c => q i j k (Z.of_nat c)) (seq (5 + s) n))).
  { induction n as [|n IH]; intros s; [reflexivity | ]. cbn [seq map fold_right]. rewrite IH, Nat2Z.inj_add. reflexivity. }
  apply X.
Qed.
Lemma anyAbove_spec d s : anyAbove d s = true <-> exists i j k, isCell d i j k /\ (1 < s i j k)%R.
Proof.
  unfold anyAbove, cells, isCell. rewrite existsb_exists. split.
  - intros (i & Ii & H). apply existsb_exists in H. destruct H as (j & Ij & H). apply existsb_exists in H. destruct H as (k & Ik & H). apply upto_in in Ii. apply upto_in in Ij. apply upto_in in Ik. destruct (Rlt_dec 1 (s i j k)); [ | discriminate]. exists i, j, k. auto.
  - intros (i & j & k & (Ci & Cj & Ck) & L). exists i. split; [apply upto_in; lia | ]. apply existsb_exists. exists j. split; [apply upto_in; lia | ]. apply existsb_exists. exists k. split; [apply upto_in; lia | ]. destruct (Rlt_dec 1 (s i j k)); [reflexivity | contradiction].
Qed.
(** a block is reported exactly if its fractions exceed one somewhere *)
Theorem C68_warned_iff_bad : forall normalize ns mb n d q w, nth_error mb n = Some (d, q) -> nth_error (snd (fst (checkSpeciesSum normalize ns mb))) n = Some w ->
  (w = true <-> exists i j k, isCell d i j k /\ (1 < fractionSum ns q i j k)%R).
Proof.
  intros normalize ns mb n d q w H W. unfold checkSpeciesSum in W. cbn [fst snd] in W. rewrite map_map, nth_error_map, H in W. cbn [option_map] in W. apply some_inj in W. unfold verifySpeciesSum in W. cbn [fst snd] in W. subst w.
  rewrite anyAbove_spec. split; intros (i & j & k & C & L); exists i, j, k; (split; [exact C | ]); [rewrite <- speciesSum_fractions | rewrite speciesSum_fractions]; exact L.
Qed.
Lemma fraction_scale ns q q' i j k a : (forall c, (5 <= c)%nat -> q' i j k (Z.of_nat c) = q i j k (Z.of_nat c) * a)%R -> fractionSum ns q' i j k = (fractionSum ns q i j k * a)%R.
Proof.
  intros H. unfold fractionSum. assert (X : forall n s, (5 <= s)%nat -> fold_right Rplus 0%R (map (fun c => q' i j k (Z.of_nat c)) (seq s n)) = (fold_right Rplus 0%R (map (fun c => q i j k (Z.of_nat c)) (seq s n)) * a)%R).
  { induction n as [|n IH]; intros s Hs; cbn [seq map fold_right]; [ring | ]. rewrite IH, H by lia. ring. }
  apply X. lia.
Qed.
(** normalising: afterwards no cell exceeds one; cells that did not, and all other variables, keep their values; in the others all fractions are scaled alike to sum one *)
Theorem C68_normalized : forall ns mb n d q q', (1 < ns)%nat -> nth_error mb n = Some (d, q) -> nth_error (fst (fst (checkSpeciesSum true ns mb))) n = Some q' ->
  forall i j k, isCell d i j k -> (fractionSum ns q' i j k <= 1)%R /\ (forall m, m < 5 -> q' i j k m = q i j k m) /\
    ((fractionSum ns q i j k <= 1)%R -> forall m, q' i j k m = q i j k m) /\
    ((1 < fractionSum ns q i j k)%R -> fractionSum ns q' i j k = 1%R /\ forall m, 5 <= m -> q' i j k m = (q i j k m / fractionSum ns q i j k)%R).
Proof.
  intros ns mb n d q q' NS H Q i j k C. unfold checkSpeciesSum in Q. cbn [fst snd] in Q. rewrite map_map, nth_error_map, H in Q. cbn [option_map] in Q. apply some_inj in Q. unfold verifySpeciesSum in Q. cbn [fst snd] in Q. rewrite andb_true_r in Q.
  destruct (anyAbove d (speciesSum ns q)) eqn:B.
  - subst q'. destruct (Rlt_dec 1 (fractionSum ns q i j k)) as [L | L].
    + assert (X : fractionSum ns (normalizeQ ns q) i j k = 1%R).
      { rewrite (fraction_scale ns q _ i j k (/ fractionSum ns q i j k)); [field; lra | ]. intros c Hc. unfold normalizeQ. rewrite speciesSum_fractions. destruct (Z.leb_spec 5 (Z.of_nat c)); [ | lia]. destruct (Rlt_dec 1 (fractionSum ns q i j k)); [reflexivity | contradiction]. }
      split; [lra | ]. split; [intros m Hm; unfold normalizeQ; destruct (Z.leb_spec 5 m); [lia | reflexivity] | ]. split; [lra | ]. intros _. split; [exact X | ]. intros m Hm. unfold normalizeQ. rewrite speciesSum_fractions. destruct (Z.leb_spec 5 m); [ | lia]. destruct (Rlt_dec 1 (fractionSum ns q i j k)); [reflexivity | contradiction].
    + assert (X : forall m, normalizeQ ns q i j k m = q i j k m). { intros m. unfold normalizeQ. rewrite speciesSum_fractions. destruct (5 <=? m); [ | reflexivity]. destruct (Rlt_dec 1 (fractionSum ns q i j k)); [contradiction | reflexivity]. }
      split; [rewrite (fraction_scale ns q _ i j k 1); [lra | intros c _; rewrite X; ring] | ]. split; [intros m _; apply X | ]. split; [intros _; exact X | intros L'; contradiction].
  - subst q'. assert (L : ~ (1 < fractionSum ns q i j k)%R). { intros L. rewrite <- speciesSum_fractions in L. assert (anyAbove d (speciesSum ns q) = true) by (apply anyAbove_spec; exists i, j, k; auto). congruence. }
    split; [lra | ]. split; [reflexivity | ]. split; [reflexivity | intros L'; contradiction].
Qed.
(** without normalising nothing is changed *)
Theorem C68_check_only : forall ns mb, fst (fst (checkSpeciesSum false ns mb)) = map snd mb.
Proof. intros ns mb. unfold checkSpeciesSum. cbn [fst]. rewrite map_map. apply map_ext. intros [d q]. unfold verifySpeciesSum. rewrite andb_false_r. reflexivity. Qed.
(** but the closing message, which tells the user to normalise (or that it is being done), comes whatever the state: also for one whose fractions sum to at most one everywhere *)
Theorem C68_verdict_refuted : exists ns mb, (1 < ns)%nat /\ mb <> [] /\ (forall d q i j k, In (d, q) mb -> (fractionSum ns q i j k <= 1)%R) /\ snd (checkSpeciesSum false ns mb) = true /\ snd (checkSpeciesSum true ns mb) = true.
Proof.
  exists 2%nat, [(mkDims 2 2 2, fun _ _ _ _ => (1 / 2)%R)]. split; [lia | ]. split; [discriminate | ]. split; [ | split; reflexivity]. intros d q i j k [E | []]. injection E as <- <-. unfold fractionSum. cbn. lra.
Qed.
(** the message says nothing: it is printed for every multi-block *)
Theorem C68_message_always : forall normalize ns mb, mb <> [] -> snd (checkSpeciesSum normalize ns mb) = true.
Proof. intros normalize ns [|[d q] mb] H; [congruence | ]. reflexivity. Qed.
Example C68_nonvacuous : snd (fst (checkSpeciesSum false 2 [(mkDims 2 2 2, fun _ _ _ _ => 2%R); (mkDims 2 2 2, fun _ _ _ _ => (1 / 2)%R)])) = [true; false].
Proof. unfold checkSpeciesSum, verifySpeciesSum, anyAbove, speciesSum. cbn. change (Pos.to_nat 1) with 1%nat. cbn. destruct (Rlt_dec 1 (2 + 0)); [ | lra]. destruct (Rlt_dec 1 (1 / 2 + 0)); [lra | ]. reflexivity. Qed.

(** * C98: the XDMF files describe what was written *)
Lemma flatW_length wh b a : 0 <= io_ng b -> goodDims (io_dims b) -> List.length (flat wh b a) = size3 (nk (io_dims b) + 2 * haloOf wh b - 1, nj (io_dims b) + 2 * haloOf wh b - 1, ni (io_dims b) + 2 * haloOf wh b - 1).
Proof.
  intros NG (A & B & C). unfold flat, cc, size3. assert (H : 0 <= haloOf wh b) by (unfold haloOf; destruct (wh && io_solver b)%bool; lia). rewrite ravelF_length by lia. f_equal. ring.
Qed.
Lemma location lump animate nrt num var : varLocation lump animate nrt num var = varFileName lump animate nrt num ++ t ":/" ++ resS num ++ t "/" ++ var.
Proof.
  unfold varLocation, varFileName, resS. change (t ".h5:/results_") with (t ".h5" ++ t ":/" ++ t "results_"). change (t "q.h5:/results_") with (t "q.h5" ++ t ":/" ++ t "results_"). destruct lump, animate; rewrite <- !app_assoc; reflexivity.
Qed.
Definition scalarsOf (w : ioBlock) : list text := (if io_solver w then [t "rho"] else []) ++ [t "p"; t "T"] ++ io_species w.
Lemma scalar_is_written rnd wh w name : goodNames (io_species w) -> In name (scalarsOf w ++ [t "u"; t "v"; t "w"]) -> exists a, assoc (resultData rnd wh w) name = Some (DArr (map rnd (flat wh w a))).
Proof.
  intros GN I. assert (In name (map fst (resultData rnd wh w))).
  { rewrite result_names, names_split by apply GN. unfold scalarsOf in I. rewrite !in_app_iff in *. destruct I as [[I | [I | I]] | I]; [left; exact I | | tauto | ]; right; left; cbn in I |- *; intuition. }
  destruct (assoc (resultData rnd wh w) name) as [v | ] eqn:E; [ | apply assoc_none in E; contradiction]. destruct (result_shape _ _ _ _ _ E) as [a ->]. eauto.
Qed.
Lemma item_leads rnd wh lump animate nrt tme num (d : disk) (qf : h5) w scalars a b c name : num = io_num w -> 0 <= io_ng w -> goodDims (io_dims w) -> goodNames (io_species w) -> extOf w = (a, b, c) ->
  assoc d (varFileName lump animate nrt num) = Some qf -> holdsW wh rnd qf w -> In name (scalarsOf w ++ [t "u"; t "v"; t "w"]) ->
  leadsTo d name (mkItem (c + 2 * haloOf wh w - 1, b + 2 * haloOf wh w - 1, a + 2 * haloOf wh w - 1) (varLocation lump animate nrt num name)) /\ xg_num (xdmfBlock lump animate nrt tme scalars num (a, b, c) (haloOf wh w)) = num.
Proof.
  intros -> NG G GN E A (g & Hg & Hk) I. split; [ | reflexivity]. destruct (scalar_is_written rnd wh w name GN I) as [arr Ha]. exists (varFileName lump animate nrt (io_num w)), (resS (io_num w)), qf, g, (map rnd (flat wh w arr)). cbn [x_loc x_dims].
  split; [apply location | ]. split; [exact A | ]. split; [exact Hg | ]. split; [rewrite Hk; exact Ha | ]. rewrite map_length, flatW_length by assumption. unfold extOf in E. injection E as <- <- <-. reflexivity.
Qed.
Lemma grid_leads rnd wh lump animate nrt tme (d : disk) (qf : h5) w : 0 <= io_ng w -> goodDims (io_dims w) -> goodNames (io_species w) ->
  assoc d (varFileName lump animate nrt (io_num w)) = Some qf -> holdsW wh rnd qf w ->
  let x := xdmfBlock lump animate nrt tme (scalarsOf w) (io_num w) (extOf w) (haloOf wh w) in
  xg_num x = io_num w /\ xg_time x = tme /\ xg_topo x = (nk (io_dims w) + 2 * haloOf wh w, nj (io_dims w) + 2 * haloOf wh w, ni (io_dims w) + 2 * haloOf wh w) /\ map fst (xg_scalars x) = scalarsOf w /\
  (forall name item, In (name, item) (xg_scalars x) -> leadsTo d name item) /\ Forall2 (leadsTo d) [t "u"; t "v"; t "w"] (xg_velocity x).
Proof.
  intros NG G GN A H. cbv zeta. unfold xdmfBlock, extOf. cbn [xg_num xg_time xg_topo xg_scalars xg_velocity]. split; [reflexivity | ]. split; [reflexivity | ]. split; [reflexivity | ]. split; [rewrite map_map; apply map_id | ].
  assert (L : forall name, In name (scalarsOf w ++ [t "u"; t "v"; t "w"]) -> leadsTo d name (mkItem (nk (io_dims w) + 2 * haloOf wh w - 1, nj (io_dims w) + 2 * haloOf wh w - 1, ni (io_dims w) + 2 * haloOf wh w - 1) (varLocation lump animate nrt (io_num w) name))).
  { intros name I. destruct (item_leads rnd wh lump animate nrt tme (io_num w) d qf w [] (ni (io_dims w)) (nj (io_dims w)) (nk (io_dims w)) name eq_refl NG G GN eq_refl A H I) as [X _]. exact X. }
  split.
  - intros name item I. apply in_map_iff in I. destruct I as (v & E & I). injection E as <- <-. apply L. apply in_or_app. left. exact I.
  - cbn [map]. repeat (constructor; [apply L; apply in_or_app; right; cbn; tauto | ]). constructor.
Qed.
(** Serial output, with or without halos, lumped or not, animated or not: for each block the XDMF file has the time of the state, the extents, one scalar per written field, and
    every location in it leads to a dataset of the size it announces *)
Theorem C98_serial : forall rnd wh lump animate nrt tme mb d0, NoDup (map io_num mb) ->
  (forall w, In w mb -> io_nrt w = nrt /\ io_tme w = tme /\ 0 <= io_ng w /\ goodDims (io_dims w) /\ goodNames (io_species w)) ->
  exists d, writeRestart rnd wh lump animate nrt mb d0 = Some d /\
  Forall2 (fun w x => xg_num x = io_num w /\ xg_time x = tme /\ xg_topo x = (nk (io_dims w) + 2 * haloOf wh w, nj (io_dims w) + 2 * haloOf wh w, ni (io_dims w) + 2 * haloOf wh w) /\ map fst (xg_scalars x) = scalarsOf w /\
    (forall name item, In (name, item) (xg_scalars x) -> leadsTo d name item) /\ Forall2 (leadsTo d) [t "u"; t "v"; t "w"] (xg_velocity x)) mb (xdmfRestart wh lump animate nrt tme mb).
Proof.
  intros rnd wh lump animate nrt tme mb d0 ND H.
  assert (X : exists d, writeRestart rnd wh lump animate nrt mb d0 = Some d /\ forall w, In w mb -> exists qf, assoc d (varFileName lump animate nrt (io_num w)) = Some qf /\ holdsW wh rnd qf w).
  { unfold writeRestart. destruct lump.
    - destruct (lump_res wh rnd nrt tme mb ND ltac:(intros w I; destruct (H w I) as (A & B & _ & _ & C); auto) [] (or_introl eq_refl) ltac:(reflexivity)) as (qf & E & It & Hh & _). rewrite E. eexists. split; [reflexivity | ].
      intros w I. exists qf. split; [exact (assoc_assign_same d0 (varFileName true animate nrt 0) qf) | apply Hh; exact I].
    - destruct (single_files (holdsW wh rnd) (writeResBlock rnd wh []) animate nrt mb ND) with (d := d0) as (d & E & A & _).
      { intros w I. destruct (H w I) as (N1 & T1 & _ & _ & GN). split; [exact N1 | ]. destruct (writeResBlock_spec wh rnd [] w nrt tme N1 T1 GN eq_refl (or_introl eq_refl)) as (qf & E & It & Hh & _). eauto. }
      exists d. auto. }
  destruct X as (d & E & A). exists d. split; [exact E | ]. unfold xdmfRestart. clear E ND. induction mb as [|w mb IH]; [constructor | ]. cbn [map]. constructor; [ | apply IH; [intros w' I; apply H; right; exact I | intros w' I; apply A; right; exact I]].
  destruct (H w (or_introl eq_refl)) as (_ & _ & NG & G & GN). destruct (A w (or_introl eq_refl)) as (qf & A1 & A2). exact (grid_leads rnd wh lump animate nrt tme d qf w NG G GN A1 A2).
Qed.
(** The extents each rank has for block n after the collective set-up are those of block n, however the blocks are spread *)
Theorem C98_parallel_extents : forall procs ranks, spread procs ranks -> List.length (totalNiList procs ranks) = List.length (concat ranks) /\
  forall w, In w (concat ranks) -> nth_error (totalNiList procs ranks) (N.to_nat (io_num w)) = Some (ni (io_dims w), nj (io_dims w), nk (io_dims w)).
Proof. exact total_nth. Qed.
(** and the XDMF entry n describes block n *)
Theorem C98_parallel_entries : forall lump animate nrt tme species procs ranks w, spread procs ranks -> In w (concat ranks) ->
  exists x, nth_error (xdmfParallel lump animate nrt tme species (totalNiList procs ranks)) (N.to_nat (io_num w)) = Some x /\ xg_num x = io_num w /\ xg_time x = tme /\
    xg_topo x = (nk (io_dims w), nj (io_dims w), ni (io_dims w)) /\ map fst (xg_scalars x) = [t "rho"; t "p"; t "T"] ++ species /\
    (forall name item, In (name, item) (xg_scalars x) -> x_loc item = varFileName lump animate nrt (io_num w) ++ t ":/" ++ resS (io_num w) ++ t "/" ++ name /\ x_dims item = (nk (io_dims w) - 1, nj (io_dims w) - 1, ni (io_dims w) - 1)).
Proof.
  intros lump animate nrt tme species procs ranks w Sp I. destruct (total_nth procs ranks Sp) as [_ T]. specialize (T w I). unfold xdmfParallel.
  assert (E : nth_error (combine (seq 0 (List.length (totalNiList procs ranks))) (totalNiList procs ranks)) (N.to_nat (io_num w)) = Some (N.to_nat (io_num w), extOf w)).
  { set (l := totalNiList procs ranks) in *. clearbody l. assert (L : (N.to_nat (io_num w) < List.length l)%nat) by (apply nth_error_Some; congruence).
    rewrite (nth_error_nth' _ (0%nat, extOf w)) by (rewrite combine_length, seq_length; lia). f_equal. rewrite combine_nth by apply seq_length. rewrite seq_nth by exact L. rewrite (nth_error_nth _ _ _ T). reflexivity. }
  rewrite nth_error_map, E. cbn [option_map]. rewrite N2Nat.id. eexists. split; [reflexivity | ]. unfold xdmfBlock, extOf. cbn [xg_num xg_time xg_topo xg_scalars]. change (2 * 0) with 0. rewrite !Z.add_0_r.
  split; [reflexivity | ]. split; [reflexivity | ]. split; [reflexivity | ]. split; [rewrite map_map; apply map_id | ]. intros name item J. apply in_map_iff in J. destruct J as (v & Ev & _). injection Ev as <- <-. cbn [x_loc x_dims]. split; [apply location | reflexivity].
Qed.
(** The XDMF file of an array written by writeArbitraryArray does not carry the time of the state *)
Theorem C98_arbitrary_time_refuted : exists tme, arbitraryTime tme <> tme /\ arbitraryTimeParallel tme = tme.
Proof. exists 1%R. unfold arbitraryTime, arbitraryTimeParallel. split; [lra | reflexivity]. Qed.
Example C98_nonvacuous : spread [[1]; [2; 0]] [[mkIo 1 (mkDims 3 2 2) true 1 (io_xyz exIo) (io_q exIo) (io_rho exIo) [t "N2"] 0 0]; [mkIo 2 (mkDims 5 2 2) true 1 (io_xyz exIo) (io_q exIo) (io_rho exIo) [t "N2"] 0 0; mkIo 0 (mkDims 4 4 2) true 1 (io_xyz exIo) (io_q exIo) (io_rho exIo) [t "N2"] 0 0]]
  /\ totalNiList [[1]; [2; 0]] [[mkIo 1 (mkDims 3 2 2) true 1 (io_xyz exIo) (io_q exIo) (io_rho exIo) [t "N2"] 0 0]; [mkIo 2 (mkDims 5 2 2) true 1 (io_xyz exIo) (io_q exIo) (io_rho exIo) [t "N2"] 0 0; mkIo 0 (mkDims 4 4 2) true 1 (io_xyz exIo) (io_q exIo) (io_rho exIo) [t "N2"] 0 0]] = [(4, 4, 2); (3, 2, 2); (5, 2, 2)].
Proof.
  split; [ | reflexivity]. split; [reflexivity | ]. cbn. apply (Permutation_trans (l' := [1; 0; 2])); [apply perm_skip, perm_swap | apply perm_swap].
Qed.

(** * C100: an interrupted output *)
Definition noDot (l : text) : Prop := ~ In "."%char l.
Lemma padded_noDot w n : noDot (padded w n).
Proof.
  unfold noDot, padded. intros I. apply in_app_or in I. destruct I as [I | I]; [apply repeat_spec in I; discriminate | ]. apply printN_digits in I. unfold isDigit in I. cbn in I. lia.
Qed.
Lemma split_dot a b r s : noDot a -> noDot b -> a ++ "."%char :: r = b ++ "."%char :: s -> a = b.
Proof.
  revert b. induction a as [|x a IH]; intros [|y b] A B E; cbn [app] in E; [reflexivity | | | ].
  - injection E as E _. elim B. left. congruence.
  - injection E as E _. elim A. left. congruence.
  - injection E as -> E. f_equal. apply IH; [intros I; apply A; right; exact I | intros I; apply B; right; exact I | exact E].
Qed.
Lemma varFileName_nrt lump n n' a b : varFileName lump true n a = varFileName lump true n' b -> n = n'.
Proof.
  unfold varFileName. destruct lump; intros H; apply app_inv_head in H; apply (padded_inj 8).
  - apply (split_dot _ _ (t "h5") (t "h5")); [apply padded_noDot | apply padded_noDot | exact H].
  - apply (split_dot _ _ (padded 6 a ++ t ".h5") (padded 6 b ++ t ".h5")); [apply padded_noDot | apply padded_noDot | exact H].
Qed.
(** With animateRestart, a program that stops at any moment while it writes the restart of a later iteration - or one whose files are damaged in any way - leaves every earlier
    restart as it was *)
Theorem C100_animated_survives : forall lump nrt nrt' d d', nrt <> nrt' -> whileWriting lump true nrt' d d' -> forall r, readRestartBlock lump true nrt d' r = readRestartBlock lump true nrt d r.
Proof.
  intros lump nrt nrt' d d' N (ws & W & ->) r. unfold readRestartBlock. assert (E : assoc (fold_left (fun d '(n, c) => assign d n c) ws d) (varFileName lump true nrt (io_num r)) = assoc d (varFileName lump true nrt (io_num r))).
  { revert d. induction ws as [|[n c] ws IH]; intros d; [reflexivity | ]. cbn [fold_left]. rewrite IH by (intros n' c' I; apply (W n' c'); right; exact I). apply assoc_assign_other. destruct (W n c (or_introl eq_refl)) as [num ->]. intros Q. apply varFileName_nrt in Q. contradiction. }
  rewrite E. reflexivity.
Qed.
(** the writers only touch files of their own restart, so these are the moments meant: whatever is written, the finished output is one of them *)
Theorem C100_finished_is_a_moment : forall rnd wh lump animate nrt mb d d', (forall w, In w mb -> io_nrt w = nrt) -> writeRestart rnd wh lump animate nrt mb d = Some d' -> whileWriting lump animate nrt d d'.
Proof.
  intros rnd wh lump animate nrt mb d d' H. unfold writeRestart. destruct lump.
  - destruct (foldM (writeResBlock rnd wh) mb []) as [qf | ]; [ | discriminate]. intros E. apply some_inj in E. subst d'. exists [(varFileName true animate nrt 0, qf)]. split; [intros n c [I | []]; injection I as <- <-; exists 0%N; reflexivity | reflexivity].
  - revert d. induction mb as [|b mb IH]; cbn [foldM]; intros d E; [apply some_inj in E; subst d'; exists []; split; [intros n c [] | reflexivity] | ].
    destruct (writeResBlock rnd wh [] b) as [qf | ]; [ | discriminate]. cbn [option_map] in E. destruct (IH (fun w I => H w (or_intror I)) _ E) as (ws & W & ->). exists ((varFileName false animate (io_nrt b) (io_num b), qf) :: ws). split; [ | reflexivity].
    intros n c [I | I]; [injection I as <- <-; rewrite (H b (or_introl eq_refl)); exists (io_num b); reflexivity | apply (W n c I)].
Qed.
(** Without animateRestart the one restart is given up before the next is there: a program that stops just after it opened the file leaves nothing to restart from *)
Theorem C100_overwriting_refuted : exists d r, (exists r', readRestartBlock true false 40 d r = Some r') /\ whileWriting true false 80 d (openForWriting d (varFileName true false 80 0)) /\
  readRestartBlock true false 80 (openForWriting d (varFileName true false 80 0)) r = None /\ readRestartBlock true false 40 (openForWriting d (varFileName true false 80 0)) r = None.
Proof.
  destruct (C66_restart_round_trip (fun x => x) true false 40 (1 / 2)%R [exIo] []) as (d & E & H).
  - repeat constructor. intros [].
  - intros w [<- | []]. split; [reflexivity | ]. split; [reflexivity | ]. split; [unfold goodDims; cbn [io_dims exIo ni nj nk]; lia | exact exIo_names].
  - exists d, exIo. split; [destruct (H exIo exIo (or_introl eq_refl) eq_refl eq_refl) as (r' & R & _); [cbn; lia | ]; exists r'; exact R | ]. split; [exists [(varFileName true false 80 0, [])]; split; [intros n c [I | []]; injection I as <- <-; exists 0%N; reflexivity | reflexivity] | ].
    split; unfold readRestartBlock, openForWriting; cbn [varFileName]; rewrite assoc_assign_same; reflexivity.
Qed.

(** * C99: dual time *)
Lemma qnm1_inj animate nrt n m : qnm1Name animate nrt n = qnm1Name animate nrt m -> n = m.
Proof. unfold qnm1Name. destruct animate; intros H; apply app_inv_head in H; [apply app_inv_head in H; apply app_inv_head in H | ]; apply app_inv_tail in H; apply (padded_inj 6); exact H. Qed.
Lemma writeQnm1_spec animate nrt mb : NoDup (map db_num mb) -> forall d,
  (forall w, In w mb -> assoc (writeQnm1 animate nrt mb d) (qnm1Name animate nrt (db_num w)) = Some (mkNpy (db_dims w) (fun i j k l => db_Qnm1 w (i + db_ng w) (j + db_ng w) (k + db_ng w) l))) /\
  (forall n, ~ In n (map db_num mb) -> assoc (writeQnm1 animate nrt mb d) (qnm1Name animate nrt n) = assoc d (qnm1Name animate nrt n)).
Proof.
  unfold writeQnm1. induction mb as [|b mb IH]; cbn [map fold_left]; intros ND d; [split; [intros w [] | reflexivity] | ]. apply NoDup_cons_iff in ND. destruct ND as [N ND].
  destruct (IH ND (assign d (qnm1Name animate nrt (db_num b)) (mkNpy (db_dims b) (fun i j k l => db_Qnm1 b (i + db_ng b) (j + db_ng b) (k + db_ng b) l)))) as [A B]. split.
  - intros w [<- | I]; [rewrite B by exact N; apply assoc_assign_same | apply A; exact I].
  - intros n Hn. cbn [In] in Hn. rewrite B by tauto. apply assoc_assign_other. intros Q. apply qnm1_inj in Q. apply Hn. left. congruence.
Qed.
(** A dual-time run that is restarted from a complete output continues with the same three states: Q as read, Qn equal to it - as at the end of a step - and the Qnm1 of every
    interior cell as it was written *)
Theorem C99_states_restored : forall animate nrt mb d w r, NoDup (map db_num mb) -> (0 < nrt)%N -> In w mb -> db_num r = db_num w -> db_dims r = db_dims w ->
  exists r', initializeDualTime animate nrt (writeQnm1 animate nrt mb d) r = Some r' /\ db_Q r' = db_Q r /\ db_Qn r' = db_Q r /\
  forall i j k l, isCell (db_dims w) i j k -> db_Qnm1 r' (db_ng r + i) (db_ng r + j) (db_ng r + k) l = db_Qnm1 w (db_ng w + i) (db_ng w + j) (db_ng w + k) l.
Proof.
  intros animate nrt mb d w r ND P I N D. unfold initializeDualTime. destruct (N.ltb_spec 0 nrt); [ | lia]. destruct (writeQnm1_spec animate nrt mb ND d) as [A _]. rewrite N, (A w I). cbn [npy_dims npy_val]. rewrite D, !Z.eqb_refl. cbn [andb].
  eexists. split; [reflexivity | ]. cbn [db_Q db_Qn db_Qnm1 db_ng]. split; [reflexivity | ]. split; [reflexivity | ]. intros i j k l (C1 & C2 & C3). unfold setSlice4. rewrite setSlice_in by lia. f_equal; lia.
Qed.
(** at the start of a simulation all three states are the initial one *)
Theorem C99_fresh_start : forall animate d r, exists r', initializeDualTime animate 0 d r = Some r' /\ db_Q r' = db_Q r /\ db_Qn r' = db_Q r /\ db_Qnm1 r' = db_Q r.
Proof. intros animate d r. eexists. split; [reflexivity | ]. auto. Qed.
Definition exDual (x y : R) : dualBlock := mkDual 0 (mkDims 2 2 2) 1 (fun _ _ _ _ => x) (fun _ _ _ _ => x) (fun _ _ _ _ => y).
(** Without animateRestart: if the program stops between the restart of an iteration and its Qnm1 files, the next run takes the Qnm1 of an earlier output for the new one, silently *)
Theorem C99_interrupted_refuted : exists (old new : dualBlock) d r', d = interruptedQnm1 false 80 [new] 0 (writeQnm1 false 40 [old] []) /\
  initializeDualTime false 80 d new = Some r' /\ exists i j k l, isCell (db_dims new) i j k /\ db_Qnm1 r' (db_ng new + i) (db_ng new + j) (db_ng new + k) l <> db_Qnm1 new (db_ng new + i) (db_ng new + j) (db_ng new + k) l /\
    db_Qnm1 r' (db_ng new + i) (db_ng new + j) (db_ng new + k) l <> db_Q new (db_ng new + i) (db_ng new + j) (db_ng new + k) l.
Proof.
  exists (exDual 1 0), (exDual 3 2). eexists. eexists. split; [reflexivity | ]. split; [reflexivity | ]. exists 0, 0, 0, 0. split; [unfold isCell; cbn; lia | ]. cbn. split; lra.
Qed.
(** with it, the missing file is noticed and the run goes on from Q alone *)
Theorem C99_animated_interruption : forall nrt nrt' mb mb' d r, nrt <> nrt' -> (forall n, assoc d (qnm1Name true nrt' n) = None) -> (0 < nrt')%N -> ~ In (db_num r) (map db_num mb') ->
  exists r', initializeDualTime true nrt' (writeQnm1 true nrt' mb' (writeQnm1 true nrt mb d)) r = Some r' /\ db_Qnm1 r' = db_Q r.
Proof.
  intros nrt nrt' mb mb' d r N A P NI. unfold initializeDualTime. destruct (N.ltb_spec 0 nrt'); [ | lia].
  assert (E : forall mb d, assoc (writeQnm1 true nrt mb d) (qnm1Name true nrt' (db_num r)) = assoc d (qnm1Name true nrt' (db_num r))).
  { clear - N. induction mb as [|b mb IH]; intros d; [reflexivity | ]. unfold writeQnm1 in *. cbn [fold_left]. rewrite IH. apply assoc_assign_other. unfold qnm1Name. intros Q. apply app_inv_head in Q. apply N.
    apply (padded_inj 8). symmetry. apply (split_dot _ _ (padded 6 (db_num r) ++ t ".npy") (padded 6 (db_num b) ++ t ".npy")); [apply padded_noDot | apply padded_noDot | exact Q]. }
  assert (E' : assoc (writeQnm1 true nrt' mb' (writeQnm1 true nrt mb d)) (qnm1Name true nrt' (db_num r)) = None).
  { assert (Q : forall mb' d, ~ In (db_num r) (map db_num mb') -> assoc (writeQnm1 true nrt' mb' d) (qnm1Name true nrt' (db_num r)) = assoc d (qnm1Name true nrt' (db_num r))).
    { clear. induction mb' as [|b mb' IH]; intros d NI; [reflexivity | ]. unfold writeQnm1 in *. cbn [map In] in NI. cbn [fold_left]. rewrite IH by tauto. apply assoc_assign_other. intros Q. apply qnm1_inj in Q. apply NI. left. congruence. }
    rewrite Q by exact NI. rewrite E. apply A. }
  rewrite E'. eexists. split; [reflexivity | ]. reflexivity.
Qed.
Print Assumptions C66_restart_round_trip.
Print Assumptions C66_parallel_round_trip.
Print Assumptions C98_serial.
Print Assumptions C99_states_restored.
Print Assumptions C100_animated_survives.
