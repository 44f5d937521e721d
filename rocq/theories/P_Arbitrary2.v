(** C161: arrays beside restart and grid files; concrete cases for C160. *)
From Coq Require Import Reals ZArith NArith String Ascii List Bool Lia Lra Permutation.
From Verif Require Import M_Topology M_Halo M_Grid M_Metrics M_Procs L_Procs M_Io S_Io L_Io L_Io2 P_Io2 P_Io3 M_Arbitrary S_Arbitrary L_Arbitrary L_Arbitrary2 P_Arbitrary.
Import ListNotations.
Open Scope Z_scope.

(** ** Concrete cases for C160 *)
(** a block of 2 x 1 x 1 cells with one halo layer, an array of four axes, an array of three, and one on the faces across the first axis *)
Definition cellArr (n : option nat) : arr := mkArr (4, 3, 3) n (fun i j k l => IZR (1000 * l + 100 * i + 10 * j + k)).
Definition faceArr : arr := mkArr (5, 3, 3) None (fun i j k l => IZR i).
Definition exArr (num : N) : arrBlock := mkArrB (mkIo num (mkDims 3 2 2) true 1 (io_xyz exIo) (io_q exIo) (io_rho exIo) [t "CH4"; t "O2"; t "N2"] 40 (1 / 2)%R)
  (fun k => if text_dec k (t "grad") then Some (cellArr (Some 3%nat)) else if text_dec k (t "J") then Some (cellArr None) else if text_dec k (t "iS") then Some faceArr else if text_dec k (t "q") then Some (cellArr (Some 7%nat)) else None).
Lemma ex_dims n : goodDims (io_dims (ab_io (exArr n))). Proof. unfold goodDims. cbn. lia. Qed.
Example C160_nonvacuous : exists d, writeArbitrary (fun x => x) true true true 40 (t "grad") [exArr 0; exArr 1] [] = Some d /\
  Forall2 (fun b x => exists a, ab_array b (t "grad") = Some a /\ parts a = 3%nat /\ gridShows (fun x => x) true d (ab_io b) (t "grad") a x) [exArr 0; exArr 1] (xdmfArbitrary true true true 40 (1 / 2)%R (t "grad") [exArr 0; exArr 1]).
Proof.
  destruct (C160_serial (fun x => x) true true true 40 (1 / 2)%R (t "grad") [exArr 0; exArr 1] []) as (d & E & F & _).
  - cbn. constructor; [intros [Q | []]; discriminate | constructor; [intros [] | constructor]].
  - intros b [<- | [<- | []]]; (split; [reflexivity | split; [reflexivity | split; [cbn; lia | split; [apply ex_dims | exists (cellArr (Some 3%nat)); split; reflexivity]]]]).
  - exists d. split; [exact E | ]. cbn [xdmfArbitrary map] in F |- *. inversion F as [| ? ? ? ? H1 F1]; subst. inversion F1 as [| ? ? ? ? H2 F2]; subst.
    constructor; [ | constructor; [ | constructor]].
    + destruct H1 as (a & A & G). exists a. split; [exact A | split; [ | exact G]]. cbn in A. apply some_inj in A. subst a. reflexivity.
    + destruct H2 as (a & A & G). exists a. split; [exact A | split; [ | exact G]]. cbn in A. apply some_inj in A. subst a. reflexivity.
Qed.
Example C160_parallel_nonvacuous : exists d x, parallelWriteArbitrary (fun x => x) true false 40 (1 / 2)%R (t "J") (totalNiList [[1]; [2; 0]] (map (map ab_io) [[exArr 1]; [exArr 2; exArr 0]])) (@rev _) [[exArr 1]; [exArr 2; exArr 0]] [] = Some d /\
  nth_error (xdmfParallelArbitrary true false 40 (1 / 2)%R [t "J"] (t "J") (totalNiList [[1]; [2; 0]] (map (map ab_io) [[exArr 1]; [exArr 2; exArr 0]]))) 2 = Some x /\ gridShows (fun x => x) false d (ab_io (exArr 2)) (t "J") (cellArr None) x.
Proof.
  destruct (C160_parallel (fun x => x) true false 40 (1 / 2)%R (t "J") [[1]; [2; 0]] [[exArr 1]; [exArr 2; exArr 0]] (@rev _) []) as (d & E & F & _).
  - split; [reflexivity | ]. cbn. apply (Permutation_trans (l' := [1; 0; 2])); [apply perm_skip, perm_swap | apply perm_swap].
  - discriminate.
  - intros r [<- | [<- | []]]; discriminate.
  - intros l. apply Permutation_sym, Permutation_rev.
  - intros b [<- | [<- | [<- | []]]]; (split; [reflexivity | split; [cbn; lia | split; [apply ex_dims | exists (cellArr None); split; reflexivity]]]).
  - assert (X : forall b a, In b (concat [[exArr 1]; [exArr 2; exArr 0]]) -> ab_array b (t "J") = Some a -> a = cellArr None) by (intros b a [<- | [<- | [<- | []]]] A; cbn in A; apply some_inj in A; congruence).
    intros b b' a a' I I' A A'. rewrite (X b a I A), (X b' a' I' A'). reflexivity.
  - destruct (F (exArr 2) (cellArr None) (exArr 1) (cellArr None)) as (x & Nx & _ & G); [right; left; reflexivity | reflexivity | left; reflexivity | reflexivity | ]. exists d, x. split; [exact E | ]. split; [exact Nx | exact G].
Qed.
Example C160_faces_nonvacuous : notPerCell (ab_io (exArr 0)) faceArr /\ forall wh lump animate d0, writeArbitrary (fun x => x) wh lump animate 40 (t "iS") [exArr 0] d0 = None.
Proof.
  assert (N : notPerCell (ab_io (exArr 0)) faceArr) by (exists 1, 0, 0; repeat split; auto; lia). split; [exact N | ]. intros wh lump animate d0.
  apply (C160_other_arrays_stop (fun x => x) wh lump animate 40 (t "iS") [exArr 0] d0 (exArr 0) faceArr); [left; reflexivity | reflexivity | exact N | cbn; lia | cbn; lia | apply ex_dims].
Qed.

(** * C161: arrays beside other files *)
Lemma foldM_keeps {A B C} (f : A -> B -> option A) (v : A -> C) l : (forall a b a', f a b = Some a' -> v a' = v a) -> forall a a', foldM f l a = Some a' -> v a' = v a.
Proof. intros H. induction l as [|b l IH]; intros a a' E; cbn [foldM] in E; [apply some_inj in E; congruence | ]. destruct (f a b) as [a1 | ] eqn:E1; [ | discriminate]. rewrite (IH a1 a' E). exact (H _ _ _ E1). Qed.
(** whatever it is given, an output of the array [name] only touches files called name. ... *)
Theorem C161_only_own_files : forall rnd wh lump animate nrt name mb d0 d f, writeArbitrary rnd wh lump animate nrt name mb d0 = Some d -> ~ ofArray name f -> assoc d f = assoc d0 f.
Proof.
  intros rnd wh lump animate nrt name mb d0 d f E Hf. unfold writeArbitrary in E. destruct lump.
  - destruct (foldM (writeArrBlock rnd wh name) mb []) as [qf | ]; [ | discriminate]. cbn [option_map] in E. apply some_inj in E. subst d. apply (assign_other d0 name); [apply arrFile_of | exact Hf].
  - refine (foldM_keeps _ (fun d => assoc d f) mb _ d0 d E). intros a b a' Ea. cbv beta in Ea. destruct (writeArrBlock rnd wh name [] b) as [qf | ]; [ | discriminate]. cbn [option_map] in Ea. apply some_inj in Ea. subst a'. apply (assign_other a name); [apply arrFile_of | exact Hf].
Qed.
Theorem C161_only_own_files_parallel : forall rnd lump animate nrt tme name exts shuffle ranks d0 d f, parallelWriteArbitrary rnd lump animate nrt tme name exts shuffle ranks d0 = Some d -> ~ ofArray name f -> assoc d f = assoc d0 f.
Proof.
  intros rnd lump animate nrt tme name exts shuffle ranks d0 d f E Hf. unfold parallelWriteArbitrary in E. destruct (allTasks name ranks) as [tk | ]; [ | discriminate]. destruct lump.
  - destruct tk as [|[first b1] tk']; [discriminate | ]. destruct (arrFrame _ _ _ _) as [f0 | ]; [ | discriminate]. destruct (foldM _ _ f0) as [qf | ]; [ | discriminate]. cbn [option_map] in E. apply some_inj in E. subst d. apply (assign_other d0 name); [apply arrFile_of | exact Hf].
  - refine (foldM_keeps _ (fun d => assoc d f) _ _ d0 d E). intros a [fi b] a' Ea. cbv beta iota in Ea. destruct (group _) as [g | ]; [ | discriminate]. destruct (fillArrBlock _ _ _ _) as [qf | ]; [ | discriminate]. cbn [option_map] in Ea. apply some_inj in Ea. subst a'. apply (assign_other a name); [apply arrFile_of | exact Hf].
Qed.
Lemma restart_is_q lump animate nrt num : ofArray (t "q") (varFileName lump animate nrt num).
Proof. unfold ofArray, varFileName. destruct lump, animate; eexists; cbn [t list_ascii_of_string app]; reflexivity. Qed.
Lemma ofArray_inj a b f : noDot a -> noDot b -> ofArray a f -> ofArray b f -> a = b.
Proof. intros A B [r ->] [s E]. exact (split_dot a b r s A B E). Qed.
Lemma noDot_q : noDot (t "q"). Proof. intros [Q | []]. discriminate. Qed.
Lemma noDot_g : noDot (t "g"). Proof. intros [Q | []]. discriminate. Qed.
Lemma restart_same d d0 : (forall f, ofArray (t "q") f -> assoc d f = assoc d0 f) -> forall lump animate nrt r, readRestartBlock lump animate nrt d r = readRestartBlock lump animate nrt d0 r.
Proof. intros H lump animate nrt r. unfold readRestartBlock. rewrite H by apply restart_is_q. reflexivity. Qed.
Lemma grid_same d d0 : (forall f, ofArray (t "g") f -> assoc d f = assoc d0 f) -> forall lump r, readGridBlock lump d r = readGridBlock lump d0 r.
Proof. intros H lump r. unfold readGridBlock. rewrite H; [reflexivity | ]. unfold ofArray. destruct lump; eexists; cbn [t list_ascii_of_string app]; reflexivity. Qed.
(** so outputs of an array of any other name than q and g leave every restart and every grid in the directory as they were *)
Theorem C161_others_safe : forall rnd wh lump animate nrt name mb d0 d, writeArbitrary rnd wh lump animate nrt name mb d0 = Some d -> ~ In "."%char name -> name <> t "q" -> name <> t "g" ->
  (forall lump' animate' nrt' r, readRestartBlock lump' animate' nrt' d r = readRestartBlock lump' animate' nrt' d0 r) /\ (forall lump' r, readGridBlock lump' d r = readGridBlock lump' d0 r).
Proof.
  intros rnd wh lump animate nrt name mb d0 d E ND Nq Ng. split.
  - apply restart_same. intros f Hf. apply (C161_only_own_files _ _ _ _ _ _ _ _ _ f E). intros H. apply Nq. exact (ofArray_inj _ _ f ND noDot_q H Hf).
  - apply grid_same. intros f Hf. apply (C161_only_own_files _ _ _ _ _ _ _ _ _ f E). intros H. apply Ng. exact (ofArray_inj _ _ f ND noDot_g H Hf).
Qed.
Theorem C161_others_safe_parallel : forall rnd lump animate nrt tme name exts shuffle ranks d0 d, parallelWriteArbitrary rnd lump animate nrt tme name exts shuffle ranks d0 = Some d -> ~ In "."%char name -> name <> t "q" -> name <> t "g" ->
  (forall lump' animate' nrt' r, readRestartBlock lump' animate' nrt' d r = readRestartBlock lump' animate' nrt' d0 r) /\ (forall lump' r, readGridBlock lump' d r = readGridBlock lump' d0 r).
Proof.
  intros rnd lump animate nrt tme name exts shuffle ranks d0 d E ND Nq Ng. split.
  - apply restart_same. intros f Hf. apply (C161_only_own_files_parallel _ _ _ _ _ _ _ _ _ _ _ f E). intros H. apply Nq. exact (ofArray_inj _ _ f ND noDot_q H Hf).
  - apply grid_same. intros f Hf. apply (C161_only_own_files_parallel _ _ _ _ _ _ _ _ _ _ _ f E). intros H. apply Ng. exact (ofArray_inj _ _ f ND noDot_g H Hf).
Qed.
(** But "q" is the name of the array of the primitive variables, and its output has the file names of the restart: written to the same directory it replaces the restart of that
    iteration, and a program that restarts from it goes on - without an error - from pressure, velocity, temperature and mass fractions that are zero everywhere *)
Lemma no_vars (qf : h5) b g : assoc qf (resS (io_num b)) = Some g -> forall l q, (forall m nm, In (m, nm) l -> assoc g nm = None) -> foldM (readVar qf b) l q = Some q.
Proof. intros A. induction l as [|[m nm] l IH]; intros q H; [reflexivity | ]. cbn [foldM]. unfold readVar at 1. cbn [fst snd]. rewrite A, (H m nm (or_introl eq_refl)). apply IH. intros m' nm' I. apply (H m' nm'). right. exact I. Qed.
Lemma q_replaces rnd lump animate nrt tme d0 b a r : okBlock (t "q") nrt b a -> io_tme (ab_io b) = tme -> io_num r = io_num (ab_io b) -> io_solver r = false ->
  (forall nm c, In nm (varNames (io_species r)) -> nm <> partName (t "q") a c) -> exists d r', writeArbitrary rnd false lump animate nrt (t "q") [b] d0 = Some d /\ readRestartBlock lump animate nrt d r = Some r' /\ forall m i j k, cellVar r' m i j k = 0%R.
Proof.
  intros (N & G & D & A & P) T Num Sol Nm. set (qf := [(t "iter", iterData nrt tme); (resS (numOf b), entries rnd false (t "q") (ab_io b) a)]).
  assert (W : writeArrBlock rnd false (t "q") [] b = Some qf).
  { unfold writeArrBlock. rewrite A, arrData_ok by assumption. rewrite group_ok by (rewrite entries_names; apply parts_nodup). unfold withIter. cbn [assoc app]. rewrite N, T. unfold create. cbn [assoc]. destruct (text_dec (resS (numOf b)) (t "iter")) as [Q | _]; [elim (resS_iter _ Q) | ]. reflexivity. }
  assert (X : exists d, writeArbitrary rnd false lump animate nrt (t "q") [b] d0 = Some d /\ assoc d (varFileName lump animate nrt (io_num r)) = Some qf).
  { unfold writeArbitrary. destruct lump; cbn [foldM]; rewrite W; cbn [option_map]; eexists; (split; [reflexivity | ]).
    - exact (assoc_assign_same d0 (arrFileName (t "q") true animate nrt 0) qf).
    - rewrite N, Num. assert (Y : varFileName false animate nrt (numOf b) = arrFileName (t "q") false animate nrt (numOf b)) by (unfold varFileName, arrFileName; destruct animate; reflexivity). rewrite Y. apply assoc_assign_same. }
  destruct X as (d & E & F). exists d. unfold readRestartBlock. rewrite F. unfold inGroup. change (assoc qf (t "iter")) with (Some (iterData nrt tme)).
  change (assoc (iterData nrt tme) (t "nrt")) with (Some (DInt (Z.of_N nrt))). change (assoc (iterData nrt tme) (t "tme")) with (Some (DReal tme)). cbn [getInt getReal].
  rewrite (no_vars qf r (entries rnd false (t "q") (ab_io b) a)).
  - rewrite Sol. eexists. split; [exact E | ]. split; [reflexivity | ]. reflexivity.
  - rewrite Num. unfold qf. cbn [assoc]. destruct (text_dec (resS (numOf b)) (t "iter")) as [Q | _]; [elim (resS_iter _ Q) | ]. destruct (text_dec (resS (numOf b)) (resS (numOf b))); congruence.
  - intros m nm I. apply assoc_none. intros J. rewrite entries_names in J. apply in_map_iff in J. destruct J as (c & Q & _). apply in_combine_r in I. exact (Nm nm c I (eq_sym Q)).
Qed.
Definition exReader : ioBlock := mkIo 0 (mkDims 3 2 2) false 0 (io_xyz exIo) (fun _ _ _ _ => 0%R) (io_rho exIo) [t "CH4"; t "O2"; t "N2"] 0 0%R.
Theorem C161_q_refuted : exists d0 d r r', writeRestart (fun x => x) false true true 40 [ab_io (exArr 0)] [] = Some d0 /\ readRestartBlock true true 40 d0 exReader = Some r /\ cellVar r 4 0 0 0 = 401%R /\
  writeArbitrary (fun x => x) false true true 40 (t "q") [exArr 0] d0 = Some d /\ readRestartBlock true true 40 d exReader = Some r' /\ forall m i j k, cellVar r' m i j k = 0%R.
Proof.
  destruct (C66_restart_round_trip (fun x => x) true true 40 (1 / 2)%R [ab_io (exArr 0)] []) as (d0 & E0 & H0).
  - repeat constructor. intros [].
  - intros w [<- | []]. split; [reflexivity | ]. split; [reflexivity | ]. split; [apply ex_dims | exact exIo_names].
  - destruct (H0 (ab_io (exArr 0)) exReader (or_introl eq_refl) eq_refl eq_refl ltac:(cbn; lia)) as (r & R & R1 & R2 & R3 & R4 & _ & _ & Re).
    destruct (q_replaces (fun x => x) true true 40 (1 / 2)%R d0 (exArr 0) (cellArr (Some 7%nat)) exReader) as (d & r' & E & R' & Z0).
    + unfold okBlock. split; [reflexivity | ]. split; [cbn; lia | ]. split; [apply ex_dims | ]. split; reflexivity.
    + reflexivity.
    + reflexivity.
    + reflexivity.
    + intros nm c I Q. cbn in I. unfold partName in Q. cbn [cellArr a_comps] in Q. 
      repeat match goal with H : _ \/ _ |- _ => destruct H as [H | H] | H : False |- _ => destruct H end; subst nm; cbn in Q; discriminate.
    + exists d0, d, r, r'. split; [exact E0 | ]. split; [exact R | ]. split; [ | split; [exact E | split; [exact R' | exact Z0]]].
      destruct (Re 0 0 0 ltac:(unfold isCell; cbn; lia) 4%nat (t "T")) as (V & _ & _); [rewrite R4; reflexivity | ]. change 4 with (Z.of_nat 4). rewrite (V 4%nat eq_refl). cbn. lra.
Qed.
Example C161_nonvacuous : ~ In "."%char (t "grad") /\ t "grad" <> t "q" /\ t "grad" <> t "g" /\ exists d, writeArbitrary (fun x => x) false false true 40 (t "grad") [exArr 0] [] = Some d.
Proof.
  split; [cbn; intuition discriminate | ]. split; [discriminate | ]. split; [discriminate | ]. destruct (C160_serial (fun x => x) false false true 40 (1 / 2)%R (t "grad") [exArr 0] []) as (d & E & _).
  - repeat constructor. intros [].
  - intros b [<- | []]. split; [reflexivity | split; [reflexivity | split; [cbn; lia | split; [apply ex_dims | exists (cellArr (Some 3%nat)); split; reflexivity]]]].
  - exists d. exact E.
Qed.
Print Assumptions C160_serial.
Print Assumptions C160_parallel.
Print Assumptions C160_idle_rank_refuted.
Print Assumptions C160_other_arrays_stop.
Print Assumptions C160_other_arrays_stop_parallel.
Print Assumptions C161_only_own_files.
Print Assumptions C161_others_safe.
Print Assumptions C161_others_safe_parallel.
Print Assumptions C161_q_refuted.
