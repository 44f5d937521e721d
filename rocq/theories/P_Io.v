(** C65, C66 (grids): files round-trip. *)
From Coq Require Import Reals ZArith NArith String Ascii List Bool Lia Permutation.
From Verif Require Import M_Topology M_Halo M_Grid M_Metrics M_Procs L_Procs S_Procs P_Procs M_Io S_Io L_Io.
Import ListNotations.
Open Scope Z_scope.

(** * C65: connectivity *)
(** a face as the setters leave it: its type is one of the valid ones (C01-C05) *)
Definition validFace (f : face) : Prop := In (bcType f) validBcTypes.
Lemma faceIn_out f g : nface f = nface g -> validFace g -> faceIn f (faceOut g) = Some g.
Proof.
  intros N V. unfold faceIn, faceOut. cbn [d_bcType d_bcFam d_neighbor d_orientation set_bcType]. replace (existsb (String.eqb (bcType g)) validBcTypes) with true by (symmetry; apply existsb_exists; exists (bcType g); split; [exact V | apply String.eqb_refl]).
  destruct g as [n fam ty nb o]. cbn in N. cbn [bcType bcFam neighbor orientation]. destruct fam, nb, o; cbn; rewrite N; reflexivity.
Qed.
Lemma faceKey_inj a b : faceKey a = faceKey b -> a = b. Proof. intros H. apply printZ_inj. exact (app_inv_head _ _ _ H). Qed.
Lemma blockKey_inj a b : blockKey a = blockKey b -> a = b. Proof. intros H. apply printZ_inj. exact (app_inv_head _ _ _ H). Qed.
Lemma fold_assign {A B} (key : B -> text) (val : B -> A) l : NoDup (map key l) -> forall acc,
  (forall b, In b l -> assoc (fold_left (fun d b => assign d (key b) (val b)) l acc) (key b) = Some (val b)) /\
  (forall k, ~ In k (map key l) -> assoc (fold_left (fun d b => assign d (key b) (val b)) l acc) k = assoc acc k).
Proof.
  induction l as [|x l IH]; cbn [map fold_left]; intros ND acc; [split; [intros b [] | reflexivity] | ]. apply NoDup_cons_iff in ND. destruct ND as [N ND]. destruct (IH ND (assign acc (key x) (val x))) as [A1 A2]. split.
  - intros b [<- | I]; [rewrite A2 by exact N; apply assoc_assign_same | apply A1; exact I].
  - intros k K. cbn [In] in K. rewrite A2 by tauto. apply assoc_assign_other. intros ->. apply K. auto.
Qed.
Lemma NoDup_map_inj {A B C} (f : A -> B) (g : B -> C) l : (forall x y, g x = g y -> x = y) -> NoDup (map f l) -> NoDup (map (fun x => g (f x)) l).
Proof. intros I H. rewrite <- map_map. apply FinFun.Injective_map_NoDup; [intros x y E; apply I; exact E | exact H]. Qed.
Lemma read_faces bd : forall l' l, map nface l' = map nface l -> (forall f, In f l -> assoc bd (faceKey (nface f)) = Some (faceOut f)) -> (forall f, In f l -> validFace f) ->
  mapM (fun f => match assoc bd (faceKey (nface f)) with None => None | Some d => faceIn f d end) l' = Some l.
Proof.
  induction l' as [|f' l' IH]; intros [|f l] Fb B V; try discriminate; [reflexivity | ]. cbn [map] in Fb. injection Fb as F0 F1. cbn [mapM].
  rewrite F0, (B f (or_introl eq_refl)), (faceIn_out f' f F0 (V f (or_introl eq_refl))), (IH l F1); [reflexivity | | ]; intros x I; [apply B | apply V]; right; exact I.
Qed.
(** a multi-block as it is built: distinct block numbers, distinct faces, valid types *)
Definition goodMb (mb : list block) : Prop := NoDup (map nblki mb) /\ forall b, In b mb -> NoDup (map nface (faces b)) /\ forall f, In f (faces b) -> validFace f.
(** Any program that reads the file, whichever of the blocks it holds and in which order, gets exactly what was written *)
Theorem C65_round_trip : forall mb mine, goodMb mb ->
  (forall b', In b' mine -> exists b, In b mb /\ nblki b' = nblki b /\ map nface (faces b') = map nface (faces b)) ->
  exists result, readConnectivity (writeConnectivity mb) mine = Some (result, Z.of_nat (List.length mb)) /\
    Forall2 (fun b' r => nblki r = nblki b' /\ forall b, In b mb -> nblki b = nblki b' -> Forall2 sameConn (faces r) (faces b)) mine result.
Proof.
  intros mb mine [ND G] H. unfold readConnectivity. set (c := writeConnectivity mb).
  assert (E : forall b', In b' mine -> exists b, In b mb /\ nblki b = nblki b' /\ readBlockConn c b' = Some b).
  { intros b' I'. destruct (H b' I') as (b & Ib & Nb & Fb). exists b. split; [exact Ib | ]. split; [congruence | ]. unfold readBlockConn, c, writeConnectivity. cbn [c_blocks].
    destruct (fold_assign (fun b => blockKey (nblki b)) (fun b => fold_left (fun bd f => assign bd (faceKey (nface f)) (faceOut f)) (faces b) []) mb (NoDup_map_inj nblki blockKey mb blockKey_inj ND) []) as [A _].
    rewrite Nb, (A b Ib). destruct (G b Ib) as [NF V]. destruct (fold_assign (fun f => faceKey (nface f)) faceOut (faces b) (NoDup_map_inj nface faceKey _ faceKey_inj NF) []) as [B _].
    set (bd := fold_left _ (faces b) []) in *. assert (M : mapM (fun f => match assoc bd (faceKey (nface f)) with None => None | Some d => faceIn f d end) (faces b') = Some (faces b)).
    { apply read_faces; auto. }
    rewrite M. cbn [option_map]. destruct b; reflexivity. }
  assert (X : exists result, mapM (readBlockConn c) mine = Some result /\ Forall2 (fun b' r => In r mb /\ nblki r = nblki b') mine result).
  { clear H. induction mine as [|b' l IH]; [exists []; split; [reflexivity | constructor] | ]. destruct (E b' (or_introl eq_refl)) as (b & Ib & Nb & R). destruct (IH ltac:(intros; apply E; right; assumption)) as (res & M & F).
    exists (b :: res). cbn [mapM]. rewrite R, M. split; [reflexivity | constructor; auto]. }
  destruct X as (res & -> & F). exists res. split; [reflexivity | ]. clear E H. induction F as [|b' r l l' [I N] F IH]; [constructor | ]. constructor; [ | exact IH]. split; [exact N | ].
  intros b Ib Nb. assert (r = b).
  { clear - ND I Ib N Nb. assert (Q : nblki r = nblki b) by congruence. clear N Nb. induction mb as [|x mb IHm]; [destruct I | ]. cbn [map] in ND. apply NoDup_cons_iff in ND. destruct ND as [N1 N2].
    destruct I as [-> | I], Ib as [-> | Ib]; auto; [elim N1; rewrite Q; apply in_map; exact Ib | elim N1; rewrite <- Q; apply in_map; exact I]. }
  subst r. clear. induction (faces b); constructor; [repeat split | assumption].
Qed.
(** a block that is not in the file cannot be read *)
Theorem C65_missing_block : forall mb b', ~ In (nblki b') (map nblki mb) -> NoDup (map nblki mb) -> readConnectivity (writeConnectivity mb) [b'] = None.
Proof.
  intros mb b' N ND. unfold readConnectivity, writeConnectivity. cbn [mapM]. unfold readBlockConn. cbn [c_blocks].
  destruct (fold_assign (fun b => blockKey (nblki b)) (fun b => fold_left (fun bd f => assign bd (faceKey (nface f)) (faceOut f)) (faces b) []) mb (NoDup_map_inj nblki blockKey mb blockKey_inj ND) []) as [_ A].
  rewrite A; [reflexivity | ]. rewrite in_map_iff. intros (b & E & I). apply blockKey_inj in E. apply N. rewrite <- E. apply in_map. exact I.
Qed.
Example C65_nonvacuous : exists r, goodMb [newBlock 12; newBlock 3] /\ readConnectivity (writeConnectivity [newBlock 12; newBlock 3]) [newBlock 3] = Some (r, 2).
Proof.
  eexists. split; [ | vm_compute; reflexivity]. split; [repeat constructor; cbn; lia | ]. intros b [<- | [<- | []]]; (split; [repeat constructor; cbn; lia | ]); intros f I; cbn in I;
  repeat (destruct I as [<- | I]; [cbn; tauto | ]); destruct I.
Qed.

(** * C66: grids *)
Lemma writeGridBlock_spec rnd wh gf b : assoc gf (coordS b) = None -> assoc gf (dimS b) = None -> exists gf', writeGridBlock rnd wh gf b = Some gf' /\
  assoc gf' (coordS b) = Some (gridCoords rnd wh b) /\ assoc gf' (dimS b) = Some (gridDims wh b) /\ forall k, k <> coordS b -> k <> dimS b -> assoc gf' k = assoc gf k.
Proof.
  intros A B. unfold writeGridBlock. destruct (create_ok gf (coordS b) (gridCoords rnd wh b) A) as [g1 E1]. rewrite E1. destruct (create_spec _ _ _ _ E1) as (_ & C1 & C2).
  destruct (create_ok g1 (dimS b) (gridDims wh b)) as [g2 E2]; [rewrite C2 by (apply not_eq_sym, coord_dim); exact B | ]. rewrite E2. destruct (create_spec _ _ _ _ E2) as (_ & D1 & D2). exists g2. split; [reflexivity | ].
  split; [rewrite D2 by apply coord_dim; exact C1 | ]. split; [exact D1 | ]. intros k K1 K2. rewrite D2, C2 by assumption. reflexivity.
Qed.
Lemma lump_grid rnd wh mb : NoDup (map io_num mb) -> forall gf, (forall b, In b mb -> assoc gf (coordS b) = None /\ assoc gf (dimS b) = None) -> exists gf', foldM (writeGridBlock rnd wh) mb gf = Some gf' /\
  (forall b, In b mb -> assoc gf' (coordS b) = Some (gridCoords rnd wh b) /\ assoc gf' (dimS b) = Some (gridDims wh b)) /\
  (forall k, (forall b, In b mb -> k <> coordS b /\ k <> dimS b) -> assoc gf' k = assoc gf k).
Proof.
  induction mb as [|b mb IH]; cbn [map foldM]; intros ND gf F; [exists gf; split; [reflexivity | split; [intros b [] | reflexivity]] | ]. apply NoDup_cons_iff in ND. destruct ND as [N ND].
  destruct (F b (or_introl eq_refl)) as [F1 F2]. destruct (writeGridBlock_spec rnd wh gf b F1 F2) as (g1 & E & C & D & O). rewrite E.
  assert (Dist : forall b2, In b2 mb -> coordS b2 <> coordS b /\ dimS b2 <> dimS b).
  { intros b2 I. split; intros Q; [apply coordS_inj in Q | apply dimS_inj in Q]; apply N; rewrite <- Q; apply in_map; exact I. }
  destruct (IH ND g1) as (g2 & E2 & A & B).
  { intros b2 I. destruct (Dist b2 I) as [Q1 Q2]. destruct (F b2 (or_intror I)) as [G1 G2]. rewrite !O; auto; [apply not_eq_sym, coord_dim | apply coord_dim]. }
  exists g2. split; [exact E2 | ]. split.
  - intros b2 [<- | I]; [ | apply A; exact I]. rewrite !B; auto; intros b2 I; destruct (Dist b2 I) as [Q1 Q2]; split; auto; [apply not_eq_sym, coord_dim | apply coord_dim].
  - intros k K. rewrite B by (intros b2 I; apply K; right; exact I). apply O; apply (K b (or_introl eq_refl)).
Qed.
Lemma single_grid rnd wh mb : NoDup (map io_num mb) -> forall d, exists d', foldM (fun d b => option_map (assign d (t "g." ++ padded 6 (io_num b) ++ t ".h5")) (writeGridBlock rnd wh [] b)) mb d = Some d' /\
  forall b, In b mb -> exists gf, assoc d' (t "g." ++ padded 6 (io_num b) ++ t ".h5") = Some gf /\ assoc gf (coordS b) = Some (gridCoords rnd wh b) /\ assoc gf (dimS b) = Some (gridDims wh b).
Proof.
  intros ND. assert (X : forall mb, NoDup (map io_num mb) -> forall d, exists d', foldM (fun d b => option_map (assign d (t "g." ++ padded 6 (io_num b) ++ t ".h5")) (writeGridBlock rnd wh [] b)) mb d = Some d' /\
    (forall b, In b mb -> exists gf, assoc d' (t "g." ++ padded 6 (io_num b) ++ t ".h5") = Some gf /\ assoc gf (coordS b) = Some (gridCoords rnd wh b) /\ assoc gf (dimS b) = Some (gridDims wh b)) /\
    (forall n, ~ In n (map io_num mb) -> assoc d' (t "g." ++ padded 6 n ++ t ".h5") = assoc d (t "g." ++ padded 6 n ++ t ".h5"))).
  { clear. induction mb as [|b mb IH]; cbn [map foldM]; intros ND d; [exists d; split; [reflexivity | split; [intros b [] | reflexivity]] | ]. apply NoDup_cons_iff in ND. destruct ND as [N ND].
    destruct (writeGridBlock_spec rnd wh [] b eq_refl eq_refl) as (g1 & E & C & D & _). rewrite E. cbn [option_map]. destruct (IH ND (assign d (t "g." ++ padded 6 (io_num b) ++ t ".h5") g1)) as (d' & E' & A & B).
    exists d'. split; [exact E' | ]. split.
    - intros b2 [<- | I]; [exists g1; rewrite B by exact N; rewrite assoc_assign_same; auto | apply A; exact I].
    - intros n Hn. cbn [In] in Hn. rewrite B by tauto. apply assoc_assign_other. intros Q. apply gName_inj in Q. apply Hn. left. congruence. }
  intros d. destruct (X mb ND d) as (d' & E & A & _). eauto.
Qed.
Lemma read_grid_from rnd (gf : h5) w r : io_num r = io_num w -> goodDims (io_dims w) -> assoc gf (coordS w) = Some (gridCoords rnd false w) -> assoc gf (dimS w) = Some (gridDims false w) ->
  forall (lump : bool) (d : disk), assoc d (if lump then t "g.h5" else t "g." ++ padded 6 (io_num r) ++ t ".h5") = Some gf ->
  exists r', readGridBlock lump d r = Some r' /\ io_num r' = io_num r /\ io_ng r' = io_ng r /\ io_solver r' = io_solver r /\ sameNodes rnd w r'.
Proof.
  intros N (G1 & G2 & G3) C D lump d A. unfold readGridBlock. rewrite A. assert (coordS r = coordS w) as -> by (unfold coordS; rewrite N; reflexivity). assert (dimS r = dimS w) as -> by (unfold dimS; rewrite N; reflexivity).
  unfold inGroup. rewrite D, C. unfold gridDims, gridCoords, haloOf, firstOf. cbn [andb]. cbv zeta. change (2 * 0) with 0. rewrite !Z.add_0_r. 
  change (assoc [(t "ni", DInt (ni (io_dims w))); (t "nj", DInt (nj (io_dims w))); (t "nk", DInt (nk (io_dims w)))] (t "ni")) with (Some (DInt (ni (io_dims w)))).
  change (assoc [(t "ni", DInt (ni (io_dims w))); (t "nj", DInt (nj (io_dims w))); (t "nk", DInt (nk (io_dims w)))] (t "nj")) with (Some (DInt (nj (io_dims w)))).
  change (assoc [(t "ni", DInt (ni (io_dims w))); (t "nj", DInt (nj (io_dims w))); (t "nk", DInt (nk (io_dims w)))] (t "nk")) with (Some (DInt (nk (io_dims w)))).
  cbn [getInt map]. cbv zeta. set (ra := fun c : Z => map rnd (ravelF (ni (io_dims w)) (nj (io_dims w)) (nk (io_dims w)) (io_ng w) (io_xyz w c))).
  assert (RA : forall c, exists v, reshapeF (ni (io_dims w)) (nj (io_dims w)) (nk (io_dims w)) (ra c) = Some v /\ forall i j k, 0 <= i < ni (io_dims w) -> 0 <= j < nj (io_dims w) -> 0 <= k < nk (io_dims w) -> v i j k = rnd (io_xyz w c (io_ng w + i) (io_ng w + j) (io_ng w + k))) by (intros c; apply reshape_ravel; lia).
  cbn [mapM]. change (map rnd (ravelF (ni (io_dims w)) (nj (io_dims w)) (nk (io_dims w)) (io_ng w) (io_xyz w 0))) with (ra 0). change (map rnd (ravelF (ni (io_dims w)) (nj (io_dims w)) (nk (io_dims w)) (io_ng w) (io_xyz w 1))) with (ra 1). change (map rnd (ravelF (ni (io_dims w)) (nj (io_dims w)) (nk (io_dims w)) (io_ng w) (io_xyz w 2))) with (ra 2).
  change (assoc [(coordName 0, DArr (ra 0)); (coordName 1, DArr (ra 1)); (coordName 2, DArr (ra 2))] (coordName 0)) with (Some (DArr (ra 0))).
  change (assoc [(coordName 0, DArr (ra 0)); (coordName 1, DArr (ra 1)); (coordName 2, DArr (ra 2))] (coordName 1)) with (Some (DArr (ra 1))).
  change (assoc [(coordName 0, DArr (ra 0)); (coordName 1, DArr (ra 1)); (coordName 2, DArr (ra 2))] (coordName 2)) with (Some (DArr (ra 2))). cbn [getArr].
  destruct (RA 0) as (v0 & -> & V0), (RA 1) as (v1 & -> & V1), (RA 2) as (v2 & -> & V2). eexists. split; [reflexivity | ]. split; [reflexivity | ]. split; [reflexivity | ]. split; [reflexivity | ]. split; [cbn [io_dims]; destruct (io_dims w); reflexivity | ].
  intros c i j k Hc Hi Hj Hk. cbn [io_xyz io_ng]. rewrite setSlice_in by assumption. assert (c = 0 \/ c = 1 \/ c = 2) as [-> | [-> | ->]] by lia; cbn [Z.eqb Pos.eqb]; [apply V0 | apply V1 | apply V2]; assumption.
Qed.
(** Writing any list of blocks with distinct numbers works, lumped or one file per block, over whatever files exist; any block that reads it back by number, with any number
    of halo layers of its own, gets the dimensions and the nodes *)
Theorem C66_grid_round_trip : forall rnd lump mb d0, NoDup (map io_num mb) -> (forall w, In w mb -> goodDims (io_dims w)) ->
  exists d, writeGrid rnd false lump mb d0 = Some d /\
  forall w r, In w mb -> io_num r = io_num w -> exists r', readGridBlock lump d r = Some r' /\ io_num r' = io_num r /\ io_ng r' = io_ng r /\ io_solver r' = io_solver r /\ sameNodes rnd w r'.
Proof.
  intros rnd lump mb d0 ND G. unfold writeGrid. destruct lump.
  - destruct (lump_grid rnd false mb ND []) as (gf & E & A & _); [intros; split; reflexivity | ]. rewrite E. eexists. split; [reflexivity | ]. intros w r I N. destruct (A w I) as [C D].
    apply (read_grid_from rnd gf w r N (G w I) C D). apply assoc_assign_same.
  - destruct (single_grid rnd false mb ND d0) as (d & E & A). exists d. split; [exact E | ]. intros w r I N. destruct (A w I) as (gf & F & C & D). apply (read_grid_from rnd gf w r N (G w I) C D false). rewrite N. exact F.
Qed.
