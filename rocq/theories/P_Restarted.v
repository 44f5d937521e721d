(** C163: stopping a run at a restart and starting it again gives what going on would have given. *)
From Coq Require Import Reals ZArith NArith String Ascii List Bool Lia Lra Permutation.
From Verif Require Import M_Topology M_Halo M_Grid M_Metrics M_Procs M_Io S_Io L_Io L_Io2 P_Io P_Io2 M_Flux M_FluxKernels S_Metrics S_FluxKernels S_Sum L_Sum M_Thermo S_Thermo L_Thermo P_Thermo P_Tpg
  M_Run S_Run L_Run P_Run M_Restarted S_Restarted L_Restarted L_Restarted2.
Import ListNotations.
Open Scope Z_scope.

(** ** The run loop *)
Section Loop.
Context {St : Type} (dtOf : R -> St -> R) (step : R -> St -> St) (nans : St -> Z) (same : St -> St -> Prop).
(** the step size does not depend on the step sizes before, and step size, step and check do not see more of the state than [same] does *)
Hypothesis steady : forall d s s', dtOf (dtOf d s) s' = dtOf d s'.
Hypothesis sameDt : forall d s s', same s s' -> dtOf d s = dtOf d s'.
Hypothesis sameStep : forall d s s', same s s' -> same (step d s) (step d s').
Hypothesis sameNans : forall s s', same s s' -> nans s = nans s'.
(** the same configuration with another number of iterations *)
Definition withIterations (c : rcfg) (n : Z) : rcfg := mkRC n (niterRestart c) (niterArchive c) (niterPrint c) (checkNan c) (isDual c) (animateRestart c) (extraVars c).
Variables (c : rcfg) (rank n0 : Z) (s0 : St) (t0 d0 : R).

(** C163: [k] iterations and then, from a state that is the same as the one reached, with its iteration number and time and the configured step size, [m] more:
    the two runs together do - steps, restarts, archives, prints, checks, visits of the coprocessor, stopping at bad values - what one run of k + m iterations does *)
Theorem C163_run_continues : forall k m s t d s1, niterRestart c <> 0 -> niterArchive c <> 0 -> niterPrint c <> 0 -> (0 < k)%nat -> (0 < m)%nat ->
  (forall j, (1 <= j <= k)%nat -> ~ stopsAt dtOf step nans (checkNan c) n0 s0 t0 d0 j) ->
  after dtOf step s0 t0 d0 k s t d -> same s s1 ->
  exists whole first second E1 E2 E2',
    simulate St dtOf step nans (withIterations c (Z.of_nat (k + m))) rank (booted St c s0 n0 t0 d0) = Finished St whole /\
    simulate St dtOf step nans (withIterations c (Z.of_nat k)) rank (booted St c s0 n0 t0 d0) = Finished St first /\
    simulate St dtOf step nans (withIterations c (Z.of_nat m)) rank (booted St c s1 (n0 + Z.of_nat k) t d0) = Finished St second /\
    history whole = E1 ++ E2 ++ [EFinalize St] /\ history first = E1 ++ [EFinalize St] /\ history second = E2' ++ [EFinalize St] /\ Forall2 (sameEvent same) E2 E2'.
Proof using steady sameDt sameStep sameNans.
  intros k m s t d s1 HR HA HP Hk Hm NS Af Sm. destruct (after_fun dtOf step s0 t0 d0 _ _ _ _ Af) as (-> & -> & ->).
  assert (Sane : forall x, x <> 0 -> sane (withIterations c x) rank) by (intros x Hx; repeat split; cbn; auto).
  destruct (simulate_history dtOf step nans (withIterations c (Z.of_nat (k + m))) rank s0 n0 t0 d0 (Sane (Z.of_nat (k + m)) ltac:(lia))) as (w & K & Ew & HK & Lw).
  destruct (simulate_history dtOf step nans (withIterations c (Z.of_nat k)) rank s0 n0 t0 d0 (Sane (Z.of_nat k) ltac:(lia))) as (f & K1 & Ef & HK1 & Lf).
  destruct (simulate_history dtOf step nans (withIterations c (Z.of_nat m)) rank s1 (n0 + Z.of_nat k) (tA dtOf step s0 t0 d0 k) d0 (Sane (Z.of_nat m) ltac:(lia))) as (g & K2 & Eg & HK2 & Lg).
  cbn [niter withIterations] in HK, HK1, HK2. rewrite Nat2Z.id in HK, HK1, HK2.
  assert (St0 : forall j, (1 <= j <= k)%nat -> stop dtOf step nans c n0 s0 t0 d0 j = false).
  { intros j Hj. destruct (stop dtOf step nans c n0 s0 t0 d0 j) eqn:E; [|reflexivity]. apply (stop_spec dtOf step nans c n0 s0 t0 d0) in E. elim (NS j Hj E). }
  assert (Ln : forall x n s t d j q, len dtOf step nans (withIterations c x) n s t d j q = len dtOf step nans c n s t d j q).
  { intros x n s t d j q. revert j. induction q as [|q IH]; intros j; [reflexivity|]. cbn [len]. rewrite IH. reflexivity. }
  assert (Ev : forall x n s t d j, evs dtOf step nans (withIterations c x) rank n s t d j = evs dtOf step nans c rank n s t d j) by reflexivity.
  rewrite Ln in HK, HK1, HK2. rewrite (len_first dtOf step nans c n0 s0 t0 d0 k St0) in HK1. rewrite (len_split dtOf step nans c n0 s0 t0 d0 k m St0) in HK.
  assert (Sh := len_shift dtOf step nans same steady sameDt sameStep sameNans c c n0 s0 s1 t0 d0 k ltac:(repeat split) Sm m 0). rewrite Nat.add_0_r in Sh. rewrite Sh, <- HK2 in HK.
  subst K K1. exists w, f, g, (flat_map (evs dtOf step nans c rank n0 s0 t0 d0) (seq 1 k)), (flat_map (evs dtOf step nans c rank n0 s0 t0 d0) (seq (k + 1) K2)),
    (flat_map (evs dtOf step nans c rank (n0 + Z.of_nat k) s1 (tA dtOf step s0 t0 d0 k) d0) (seq 1 K2)).
  split; [exact Ew|]. split; [exact Ef|]. split; [exact Eg|]. split; [|split; [|split]].
  - rewrite Lw. rewrite (flat_map_ext_in _ (evs dtOf step nans c rank n0 s0 t0 d0)) by (intros; apply Ev). rewrite seq_app, flat_map_app, <- app_assoc. rewrite (Nat.add_comm k 1). reflexivity.
  - rewrite Lf. f_equal.
  - rewrite Lg. f_equal.
  - apply (evs_shifts dtOf step nans same steady sameDt sameStep sameNans c c rank n0 s0 s1 t0 d0 k ltac:(repeat split) Sm K2 1). lia.
Qed.
End Loop.

(** ** The state *)
Lemma stored_length species : species <> [] -> List.length (stored species) = (5 + List.length species - 1)%nat.
Proof. intros H. unfold stored. rewrite app_length, removelast_firstn_len, firstn_length. cbn [map List.length]. destruct species; [congruence|]. cbn [List.length pred]. lia. Qed.
Lemma read_sameq w r' species nsp : goodNames species -> Z.of_nat (List.length species) = nsp -> io_species w = species -> io_species r' = species -> restored (fun x => x) w r' ->
  forall i j k, isCell (io_dims w) i j k -> forall l, (0 <= l < 5 + nsp - 1)%Z -> cellVar r' l i j k = cellVar w l i j k.
Proof.
  intros [NE _] Ns Sw Sr H i j k C l Hl. rewrite <- (Z2Nat.id l) by lia. assert (L := stored_length species NE).
  destruct (nth_error (stored species) (Z.to_nat l)) as [name|] eqn:E; [|apply nth_error_None in E; rewrite L in E; lia].
  destruct (H i j k C (Z.to_nat l) name) as (A & _ & _); [now rewrite Sr|]. apply A. now rewrite Sw.
Qed.
Lemma mapM_total {A B} (f : A -> option B) (P : A -> B -> Prop) l : (forall x, In x l -> exists y, f x = Some y /\ P x y) -> exists l', mapM f l = Some l' /\ Forall2 P l l'.
Proof.
  induction l as [|x l IH]; intros H; [exists []; split; [reflexivity | constructor]|]. destruct (H x (or_introl eq_refl)) as (y & E & Py). destruct IH as (l' & E' & F); [intros z I; apply H; right; exact I|].
  exists (y :: l'). cbn [mapM]. rewrite E, E'. split; [reflexivity | now constructor].
Qed.
Lemma cellAt_everywhere f b i j k : cellAt (everywhere f b) i j k = f (cellAt b i j k).
Proof. unfold cellAt, everywhere, cellOf. cbn [sb_io sb_Q sb_h withQ io_ng io_q]. destruct (f _) as [a b' c] eqn:E. cbn [cQ cq ch]. reflexivity. Qed.
(** what every bootstrap does with the restart of a state, whatever the gas *)
Lemma boot_spec (prims cons : cell -> cell) (rel : cell -> cell -> Prop) species nsp lump anim n t procs ranks order rs d0 :
  goodNames species -> Z.of_nat (List.length species) = nsp ->
  spread procs (map (map sb_io) ranks) -> Permutation order (concat ranks) ->
  (forall b, In b (concat ranks) -> goodDims (io_dims (sb_io b)) /\ io_species (sb_io b) = species /\ io_solver (sb_io b) = true) ->
  Forall2 setUpFor rs (map sb_io (concat ranks)) ->
  (forall b i j k, In b (concat ranks) -> isCell (io_dims (sb_io b)) i j k -> forall c1, sameq nsp c1 (cellAt b i j k) -> rel (cellAt b i j k) (cons (prims c1))) ->
  exists d bs, writeRun lump anim n t procs ranks species order d0 = Some d /\ bootstrap prims cons lump anim n d rs = Some bs /\
    Forall2 (fun b b' => io_num (sb_io b) = io_num (sb_io b') /\ io_dims (sb_io b) = io_dims (sb_io b') /\ io_nrt (sb_io b') = n /\ io_tme (sb_io b') = t /\
                         forall i j k, isCell (io_dims (sb_io b)) i j k -> rel (cellAt b i j k) (cellAt b' i j k)) (concat ranks) bs.
Proof.
  intros GN Ns Sp Pe G Su HC. set (st := fun b => stamp n t (sb_io b)).
  destruct (C66_parallel_round_trip (fun x => x) lump anim n t species procs (map (map st) ranks) (map st order) d0) as (d & Ew & Rb).
  - destruct Sp as [S1 S2]. split; [|exact S2]. rewrite <- S1, !map_map. apply map_ext. intros l. rewrite !map_map. reflexivity.
  - rewrite <- concat_map. apply Permutation_map. exact Pe.
  - intros w I. apply in_map_iff in I. destruct I as (b & <- & I). destruct (G b (Permutation_in b Pe I)) as (A & B & C). repeat split; [apply A | apply A | apply A | exact B | exact C].
  - exact GN.
  - assert (One : forall r b, In b (concat ranks) -> setUpFor r (sb_io b) -> exists y, bootBlock prims lump anim n d r = Some y /\
      (io_num (sb_io b) = io_num (sb_io y) /\ io_dims (sb_io b) = io_dims (sb_io y) /\ io_nrt (sb_io y) = n /\ io_tme (sb_io y) = t /\ forall i j k, isCell (io_dims (sb_io b)) i j k -> rel (cellAt b i j k) (cellAt (everywhere cons y) i j k))).
    { intros r b I (U1 & U2 & U3 & U4 & U5). destruct (G b I) as (GD & GS & _).
      destruct (Rb (st b) r) as (r' & E & R1 & R2 & R3 & R4 & R5 & R6 & R7); [apply in_map; exact (Permutation_in b (Permutation_sym Pe) I) | exact U1 | exact U2 | exact U5|].
      eexists. split; [unfold bootBlock; rewrite E; reflexivity|]. cbn [everywhere sb_io withQ io_num io_dims io_nrt io_tme]. split; [congruence|]. split; [congruence|]. split; [exact R5|]. split; [exact R6|].
      intros i j k C. rewrite !cellAt_everywhere.
      apply HC; [exact I | exact C|]. intros l Hl.
      apply (read_sameq (st b) r' species nsp GN Ns GS ltac:(congruence) R7 i j k C l Hl). }
    assert (Al : exists bs, mapM (bootBlock prims lump anim n d) rs = Some bs /\
      Forall2 (fun b y => io_num (sb_io b) = io_num (sb_io y) /\ io_dims (sb_io b) = io_dims (sb_io y) /\ io_nrt (sb_io y) = n /\ io_tme (sb_io y) = t /\ forall i j k, isCell (io_dims (sb_io b)) i j k -> rel (cellAt b i j k) (cellAt (everywhere cons y) i j k)) (concat ranks) bs).
    { clear - Su One. revert rs Su One. induction (concat ranks) as [|b l IH]; intros rs Su One; inversion Su as [|r b' rs' l' U Us]; subst; [exists []; split; [reflexivity | constructor]|].
      destruct (One r b (or_introl eq_refl) U) as (y & E & Py). destruct (IH rs' Us) as (bs & E' & F); [intros; apply One; [now right | assumption]|].
      exists (y :: bs). cbn [mapM]. rewrite E, E'. split; [reflexivity | now constructor]. }
    destruct Al as (bs & Em & F). exists d, (consistifyCells cons bs). split; [unfold writeRun; rewrite <- Ew; f_equal; now rewrite map_map|]. split; [unfold bootstrap; now rewrite Em|].
    clear - F. unfold consistifyCells. induction F as [|b y l bs P F IH]; [constructor|]. cbn [map]. constructor; [exact P | exact IH].
Qed.

(** C163, calorically perfect gas: the restart of a state whose cells the solver has made consistent, written by any number of ranks in any order, lumped or not, animated or not, and read by a new run - with
    other halo widths if need be - gives back, in every interior cell, the primitives, the conserved variables and the thermodynamic quantities, and the iteration number and time *)
Theorem C163_state_restored : forall th species lump anim n t procs ranks order rs d0, goodGas th -> goodCp th ->
  goodNames species -> Z.of_nat (List.length species) = ns th ->
  spread procs (map (map sb_io) ranks) -> Permutation order (concat ranks) ->
  (forall b, In b (concat ranks) -> goodDims (io_dims (sb_io b)) /\ io_species (sb_io b) = species /\ io_solver (sb_io b) = true) ->
  Forall2 setUpFor rs (map sb_io (concat ranks)) -> (forall b, In b (concat ranks) -> settledBlock th b) ->
  exists d bs, writeRun lump anim n t procs ranks species order d0 = Some d /\ bootstrap (cpgPrims th) (cpgCons th) lump anim n d rs = Some bs /\
    sameBlocks (ns th) (concat ranks) bs /\ (ranks <> [] -> concat ranks <> [] -> bootCounters bs = Some (n, t)).
Proof.
  intros th species lump anim n t procs ranks order rs d0 HG HCp GN Ns Sp Pe G Su Se.
  destruct (boot_spec (cpgPrims th) (cpgCons th) (fun c c' => sameq (ns th) c c' /\ sameQ (ns th) c c' /\ sameh (ns th) c c') species (ns th) lump anim n t procs ranks order rs d0 GN Ns Sp Pe G Su) as (d & bs & Ew & Eb & F).
  { intros b i j k I C c1 S1. destruct (cell_restored th (cellAt b i j k) c1 HG HCp (Se b I i j k C) S1) as (A & B & D). repeat split; intros l Hl; symmetry; auto. }
  exists d, bs. split; [exact Ew|]. split; [exact Eb|]. split.
  - clear - F. induction F as [|b y l bs (P1 & P2 & _ & _ & P3) F IH]; constructor; [repeat split; try assumption; now apply P3 | exact IH].
  - intros _ NE. destruct F as [|b y l bs (_ & _ & P1 & P2 & _) F]; [congruence|]. cbn [bootCounters]. now rewrite P1, P2.
Qed.

(** C163, together: a calorically perfect gas is run for k iterations, the last of which is due for a restart; a new run starts from that file.  If a step, the step size and the check depend on
    the interior cells only, the new run does what the first would have done had it gone on *)
Theorem C163_restarted_run : forall th species lump procs (ranksOf : list sblk -> list (list sblk)) order rs d0 dtOf step nans c rank n0 s0 t0 d0' k m s t d,
  goodGas th -> goodCp th -> goodNames species -> Z.of_nat (List.length species) = ns th ->
  (forall d s s', dtOf (dtOf d s) s' = dtOf d s') -> (forall d s s', sameBlocks (ns th) s s' -> dtOf d s = dtOf d s') ->
  (forall d s s', sameBlocks (ns th) s s' -> sameBlocks (ns th) (step d s) (step d s')) -> (forall s s', sameBlocks (ns th) s s' -> nans s = nans s') ->
  niterRestart c <> 0 -> niterArchive c <> 0 -> niterPrint c <> 0 -> (0 < k)%nat -> (0 < m)%nat ->
  (forall j, (1 <= j <= k)%nat -> ~ stopsAt dtOf step nans (checkNan c) n0 s0 t0 d0' j) ->
  after dtOf step s0 t0 d0' k s t d -> (niterRestart c | n0 + Z.of_nat k) -> 0 <= n0 ->
  concat (ranksOf s) = s -> spread procs (map (map sb_io) (ranksOf s)) -> Permutation order s ->
  (forall b, In b s -> goodDims (io_dims (sb_io b)) /\ io_species (sb_io b) = species /\ io_solver (sb_io b) = true /\ settledBlock th b) -> Forall2 setUpFor rs (map sb_io s) ->
  exists whole first E1 E2 file s1 second E2',
    simulate _ dtOf step nans (withIterations c (Z.of_nat (k + m))) rank (booted _ c s0 n0 t0 d0') = Finished _ whole /\ history whole = E1 ++ E2 ++ [EFinalize _] /\
    simulate _ dtOf step nans (withIterations c (Z.of_nat k)) rank (booted _ c s0 n0 t0 d0') = Finished _ first /\ history first = E1 ++ [EFinalize _] /\
    In (ERestart _ (animateRestart c) false (n0 + Z.of_nat k) t s) E1 /\
    writeRun lump (animateRestart c) (Z.to_N (n0 + Z.of_nat k)) t procs (ranksOf s) species order d0 = Some file /\
    bootstrap (cpgPrims th) (cpgCons th) lump (animateRestart c) (Z.to_N (n0 + Z.of_nat k)) file rs = Some s1 /\ (s <> [] -> bootCounters s1 = Some (Z.to_N (n0 + Z.of_nat k), t)) /\
    simulate _ dtOf step nans (withIterations c (Z.of_nat m)) rank (booted _ c s1 (n0 + Z.of_nat k) t d0') = Finished _ second /\ history second = E2' ++ [EFinalize _] /\
    Forall2 (sameEvent (sameBlocks (ns th))) E2 E2'.
Proof.
  intros th species lump procs ranksOf order rs d0 dtOf step nans c rank n0 s0 t0 d0' k m s t d HG HC GN Ns Steady Sd Ss Sn HR HA HP Hk Hm NS Af Due N0 Cc Sp Pe G Su.
  destruct (C163_state_restored th species lump (animateRestart c) (Z.to_N (n0 + Z.of_nat k)) t procs (ranksOf s) order rs d0 HG HC GN Ns Sp) as (file & s1 & Ew & Eb & Sm & Ct); rewrite ?Cc; auto.
  { intros b I. destruct (G b I) as (A & B & C & _). auto. } { intros b I. apply (G b I). }
  rewrite Cc in Sm, Ct.
  destruct (C163_run_continues dtOf step nans (sameBlocks (ns th)) Steady Sd Ss Sn c rank n0 s0 t0 d0' k m s t d s1 HR HA HP Hk Hm NS Af Sm) as (w & f & g & E1 & E2 & E2' & A1 & A2 & A3 & A4 & A5 & A6 & A7).
  exists w, f, E1, E2, file, s1, g, E2'. split; [exact A1|]. split; [exact A4|]. split; [exact A2|]. split; [exact A5|]. split.
  { destruct (C80_restarts dtOf step nans (withIterations c (Z.of_nat k)) rank n0 s0 t0 d0') as (f' & K & R1 & R2 & X1 & X2 & X3 & X4 & _).
    { repeat split; cbn; auto. right. lia. }
    assert (Ff : Finished _ f' = Finished _ f) by (transitivity (simulate _ dtOf step nans (withIterations c (Z.of_nat k)) rank (booted _ c s0 n0 t0 d0')); [symmetry; exact X1 | exact A2]).
    assert (f' = f) as -> by congruence. cbn [niter withIterations] in X2. rewrite Nat2Z.id in X2.
    assert (K = k) as ->. { destruct X2 as (Y1 & _ & [Y | [Y Z]]); [exact Y|]. cbn in Z. elim (NS K); [lia | exact Z]. }
    destruct X4 as (ks & [_ L2] & F2). cbn [niterRestart withIterations animateRestart] in L2, F2.
    assert (Ik : In k ks). { apply L2. split; [lia|]. exact Due. }
    assert (IR : In (ERestart _ (animateRestart c) false (n0 + Z.of_nat k) t s) R1).
    { clear - F2 Ik Af. induction F2 as [|x e ks R1 (s' & t' & d' & Af' & ->) F IH]; [destruct Ik|]. destruct Ik as [-> | Ik]; [left | right; auto].
      destruct (after_fun dtOf step s0 t0 d0' _ _ _ _ Af) as (-> & -> & _). destruct (after_fun dtOf step s0 t0 d0' _ _ _ _ Af') as (-> & -> & _). reflexivity. }
    assert (IH : In (ERestart _ (animateRestart c) false (n0 + Z.of_nat k) t s) (filter isRestart (history f))) by (rewrite X3; apply in_or_app; left; exact IR).
    apply filter_In in IH. destruct IH as [IH _]. rewrite A5 in IH. apply in_app_or in IH. destruct IH as [IH | [IH | []]]; [exact IH | discriminate]. }
  split; [exact Ew|]. split; [exact Eb|]. split. { intros NE. apply Ct; [|exact NE]. intros Q. apply NE. rewrite <- Cc, Q. reflexivity. }
  split; [exact A3|]. split; [exact A6 | exact A7].
Qed.
