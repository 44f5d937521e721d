(** C162: the geometry of XDMF files. *)
From Coq Require Import Reals ZArith NArith String Ascii List Bool Lia.
From Verif Require Import M_Topology M_Halo M_Grid M_Metrics M_Procs L_Procs M_Io S_Io L_Io L_Io2 P_Io P_Io2 P_Io3 M_GridLoc S_GridLoc M_Arbitrary S_Arbitrary P_Arbitrary P_Arbitrary2.
Import ListNotations.
Open Scope Z_scope.

Definition gName (lump : bool) (n : N) : text := if lump then t "g.h5" else t "g." ++ padded 6 n ++ t ".h5".
Lemma gName_g lump n : exists rest, gName lump n = "g"%char :: "."%char :: rest.
Proof. unfold gName. destruct lump; eexists; cbn [t list_ascii_of_string app]; reflexivity. Qed.
Lemma coord_location lump num coord : coordLocation lump num coord = gName lump num ++ t ":/" ++ (t "coordinates_" ++ padded 6 num) ++ t "/" ++ coord.
Proof. unfold coordLocation, gName. destruct lump; rewrite <- ?app_assoc; reflexivity. Qed.
Lemma nodes_item rnd wh lump (d : disk) (gf : h5) b c name : 0 <= io_ng b -> goodDims (io_dims b) -> nth_error [t "x"; t "y"; t "z"] c = Some name -> assoc d (gName lump (io_num b)) = Some gf -> assoc gf (coordS b) = Some (gridCoords rnd wh b) ->
  exists item, nth_error (geometryOf wh lump b) c = Some item /\ itemNodes rnd wh d b c name item.
Proof.
  intros G (D1 & D2 & D3) Hc A B. unfold geometryOf, xdmfGeometry, extOf. rewrite nth_error_map, Hc. cbn [option_map]. eexists. split; [reflexivity | ]. unfold itemNodes. cbv zeta. cbn [x_loc x_dims].
  assert (S : forall n, n + 2 * haloOf wh b = nodesShown wh b n) by (intros n; unfold haloOf, nodesShown; destruct (wh && io_solver b)%bool; ring). 
  exists (gName lump (io_num b)), (coordS b), gf, (gridCoords rnd wh b), (map rnd (ravelF (nodesShown wh b (ni (io_dims b))) (nodesShown wh b (nj (io_dims b))) (nodesShown wh b (nk (io_dims b))) (firstNode wh b) (io_xyz b (Z.of_nat c)))).
  split; [apply coord_location | ]. split; [exact A | ]. split; [exact B | ]. split; [ | split; [rewrite !S; reflexivity | ]].
  - unfold gridCoords. cbv zeta. rewrite !S. fold (firstNode wh b). destruct c as [|[|[|c]]]; cbn [nth_error] in Hc; try (destruct c; discriminate); apply some_inj in Hc; subst name; reflexivity.
  - assert (NN : forall n, 2 <= n -> 0 <= nodesShown wh b n) by (intros n Hn; unfold nodesShown; destruct (wh && io_solver b)%bool; lia). pose proof (NN _ D1) as N1. pose proof (NN _ D2) as N2. pose proof (NN _ D3) as N3.
    split; [rewrite map_length; apply ravelF_length; assumption | ]. intros i j k Hi Hj Hk. set (m1 := nodesShown wh b (ni (io_dims b))) in *. set (m2 := nodesShown wh b (nj (io_dims b))) in *. set (m3 := nodesShown wh b (nk (io_dims b))) in *.
    assert (Q : j + m2 * k <= m2 * m3 - 1) by nia. assert (Q1 : 0 <= j + m2 * k) by nia. assert (Q2 : m1 * (j + m2 * k) <= m1 * (m2 * m3 - 1)) by (apply Z.mul_le_mono_nonneg_l; lia). assert (Q3 : 0 <= m1 * (j + m2 * k)) by nia.
    rewrite (nth_indep _ 0%R (rnd 0%R)) by (rewrite map_length, ravelF_length by assumption; apply Z2Nat.inj_lt; lia). rewrite map_nth, ravelF_nth by assumption. reflexivity.
Qed.
(** When the grid is written with the same lumping and the same choice about halos as the results, the geometry of every XDMF file - of the grid, of results, of arrays - leads to the
    nodes of every block, at once and after any output that leaves the grid files alone *)
Theorem C162_same_choices : forall rnd wh lump mb d0, NoDup (map io_num mb) -> (forall b, In b mb -> 0 <= io_ng b /\ goodDims (io_dims b)) ->
  exists d, writeGrid rnd wh lump mb d0 = Some d /\ forall d', gridFilesKept d d' -> forall b c name, In b mb -> nth_error [t "x"; t "y"; t "z"] c = Some name ->
    exists item, nth_error (geometryOf wh lump b) c = Some item /\ itemNodes rnd wh d' b c name item.
Proof.
  intros rnd wh lump mb d0 ND H.
  assert (X : exists d, writeGrid rnd wh lump mb d0 = Some d /\ forall b, In b mb -> exists gf, assoc d (gName lump (io_num b)) = Some gf /\ assoc gf (coordS b) = Some (gridCoords rnd wh b)).
  { unfold writeGrid. destruct lump.
    - destruct (lump_grid rnd wh mb ND []) as (gf & E & A & _); [intros; split; reflexivity | ]. rewrite E. eexists. split; [reflexivity | ]. intros b I. exists gf. split; [apply assoc_assign_same | apply A; exact I].
    - destruct (single_grid rnd wh mb ND d0) as (d & E & A). exists d. split; [exact E | ]. intros b I. destruct (A b I) as (gf & F & C & _). exists gf. split; [exact F | exact C]. }
  destruct X as (d & E & A). exists d. split; [exact E | ]. intros d' K b c name I Hc. destruct (H b I) as (G & D). destruct (A b I) as (gf & F & C).
  apply (nodes_item rnd wh lump d' gf b c name G D Hc); [ | exact C]. destruct (gName_g lump (io_num b)) as (rest & Er). rewrite Er, K, <- Er. exact F.
Qed.
(** restarts and arrays are such outputs *)
Theorem C162_restart_keeps : forall rnd wh lump animate nrt mb d0 d, writeRestart rnd wh lump animate nrt mb d0 = Some d -> gridFilesKept d0 d.
Proof.
  intros rnd wh lump animate nrt mb d0 d E rest. unfold writeRestart in E.
  assert (N : forall l a n m, "g"%char :: "."%char :: rest <> varFileName l a n m) by (intros l a n m Q; unfold varFileName in Q; destruct l, a; cbn [t list_ascii_of_string app] in Q; discriminate).
  destruct lump.
  - destruct (foldM (writeResBlock rnd wh) mb []) as [qf | ]; [ | discriminate]. cbn [option_map] in E. apply some_inj in E. subst d. apply assoc_assign_other. apply N.
  - refine (foldM_keeps _ (fun d => assoc d ("g"%char :: "."%char :: rest)) mb _ d0 d E). intros a b a' Ea. cbv beta in Ea. destruct (writeResBlock rnd wh [] b) as [qf | ]; [ | discriminate]. cbn [option_map] in Ea. apply some_inj in Ea. subst a'. apply assoc_assign_other. apply N.
Qed.
Theorem C162_array_keeps : forall rnd wh lump animate nrt name mb d0 d, writeArbitrary rnd wh lump animate nrt name mb d0 = Some d -> ~ In "."%char name -> name <> t "g" -> gridFilesKept d0 d.
Proof.
  intros rnd wh lump animate nrt name mb d0 d E ND Ng rest. apply (C161_only_own_files _ _ _ _ _ _ _ _ _ _ E). intros H. apply Ng. apply (ofArray_inj name (t "g") ("g"%char :: "."%char :: rest) ND noDot_g H). exists rest. reflexivity.
Qed.
(** With different choices the geometry leads nowhere: results in one file per block, beside a grid in one file *)
Lemma loc_file (d : disk) file : (exists gf, d = [(t "g.h5", gf)]) -> forall v, assoc d file = Some v -> file = t "g.h5".
Proof. intros (gf & ->) v H. cbn [assoc] in H. destruct (text_dec file (t "g.h5")) as [Q | _]; [exact Q | discriminate]. Qed.
Theorem C162_lump_differs_refuted : exists d b item, writeGrid (fun x => x) false true [b] [] = Some d /\ nth_error (geometryOf false false b) 0 = Some item /\ ~ leadsTo d (t "x") item.
Proof.
  exists [(t "g.h5", [(coordS exIo, gridCoords (fun x => x) false exIo); (dimS exIo, gridDims false exIo)])], exIo. eexists. split; [reflexivity | ]. split; [reflexivity | ].
  intros (file & grp & qf & g & l & E & A & _). apply (loc_file _ _ (ex_intro _ _ eq_refl)) in A. subst file. vm_compute in E. discriminate.
Qed.
(** and results with halos beside a grid without: the dataset has fewer values than announced *)
Theorem C162_halo_differs_refuted : exists d b item, writeGrid (fun x => x) false true [b] [] = Some d /\ nth_error (geometryOf true true b) 0 = Some item /\ ~ leadsTo d (t "x") item.
Proof.
  exists [(t "g.h5", [(coordS exIo, gridCoords (fun x => x) false exIo); (dimS exIo, gridDims false exIo)])], exIo. eexists. split; [reflexivity | ]. split; [reflexivity | ].
  intros (file & grp & qf & g & l & E & A & B & C & L). apply (loc_file _ _ (ex_intro _ _ eq_refl)) in A as Ef. subst file.
  assert (Eg : grp = coordS exIo). { unfold geometryOf, xdmfGeometry in E. cbn [x_loc extOf] in E. rewrite coord_location in E. unfold gName in E. apply app_inv_head in E. apply app_inv_head in E. rewrite !app_assoc in E. apply app_inv_tail in E. apply app_inv_tail in E. symmetry. exact E. }
  subst grp. cbn [assoc] in A. destruct (text_dec (t "g.h5") (t "g.h5")); [ | congruence]. apply some_inj in A. subst qf. cbn [assoc] in B. destruct (text_dec (coordS exIo) (coordS exIo)); [ | congruence]. apply some_inj in B. subst g.
  unfold gridCoords in C. cbv zeta in C. cbn [map] in C. change (assoc ((coordName 0, DArr (map (fun x => x) (ravelF (ni (io_dims exIo) + 2 * haloOf false exIo) (nj (io_dims exIo) + 2 * haloOf false exIo) (nk (io_dims exIo) + 2 * haloOf false exIo) (firstOf false exIo) (io_xyz exIo 0)))) ::
    [(coordName 1, DArr (map (fun x => x) (ravelF (ni (io_dims exIo) + 2 * haloOf false exIo) (nj (io_dims exIo) + 2 * haloOf false exIo) (nk (io_dims exIo) + 2 * haloOf false exIo) (firstOf false exIo) (io_xyz exIo 1))));
     (coordName 2, DArr (map (fun x => x) (ravelF (ni (io_dims exIo) + 2 * haloOf false exIo) (nj (io_dims exIo) + 2 * haloOf false exIo) (nk (io_dims exIo) + 2 * haloOf false exIo) (firstOf false exIo) (io_xyz exIo 2))))]) (coordName 0) = Some (DArr l)) in C.
  assert (Cl : Some (DArr (map (fun x => x) (ravelF (ni (io_dims exIo) + 2 * haloOf false exIo) (nj (io_dims exIo) + 2 * haloOf false exIo) (nk (io_dims exIo) + 2 * haloOf false exIo) (firstOf false exIo) (io_xyz exIo 0)))) = Some (DArr l)) by exact C.
  apply some_inj in Cl. assert (Ll : List.length l = 12%nat). { assert (Q : l = map (fun x => x) (ravelF (ni (io_dims exIo) + 2 * haloOf false exIo) (nj (io_dims exIo) + 2 * haloOf false exIo) (nk (io_dims exIo) + 2 * haloOf false exIo) (firstOf false exIo) (io_xyz exIo 0))) by congruence.
    rewrite Q, map_length, ravelF_length by (cbn; lia). reflexivity. }
  rewrite Ll in L. cbn in L. discriminate.
Qed.
Example C162_nonvacuous : exists d d', writeGrid (fun x => x) true true [exIo] [] = Some d /\ writeRestart (fun x => x) true true true 40 [exIo] d = Some d' /\ forall c name, nth_error [t "x"; t "y"; t "z"] c = Some name ->
  exists item, nth_error (geometryOf true true exIo) c = Some item /\ itemNodes (fun x => x) true d' exIo c name item.
Proof.
  destruct (C162_same_choices (fun x => x) true true [exIo] []) as (d & E & H).
  - repeat constructor. intros [].
  - intros b [<- | []]. split; [cbn; lia | unfold goodDims; cbn; lia].
  - destruct (C98_serial (fun x => x) true true true 40 (1 / 2)%R [exIo] d) as (d' & E' & _).
    + repeat constructor. intros [].
    + intros w [<- | []]. split; [reflexivity | ]. split; [reflexivity | ]. split; [cbn; lia | ]. split; [unfold goodDims; cbn; lia | exact exIo_names].
    + exists d, d'. split; [exact E | ]. split; [exact E' | ]. intros c name Hc. exact (H d' (C162_restart_keeps _ _ _ _ _ _ _ _ E') exIo c name (or_introl eq_refl) Hc).
Qed.
Print Assumptions C162_same_choices.
Print Assumptions C162_restart_keeps.
Print Assumptions C162_array_keeps.
Print Assumptions C162_lump_differs_refuted.
Print Assumptions C162_halo_differs_refuted.
