(** Kinetic-theory transport: C74 (positivity), C110 (locality), C111 (binary mixtures). *)
From Coq Require Import Reals ZArith List Bool Lia Lra Psatz.
From Verif Require Import M_Topology M_Halo M_Grid M_Metrics S_Metrics S_Sum M_Flux M_FluxKernels S_FluxKernels M_Thermo S_Thermo L_Grid1 L_Sum L_Thermo M_Transport S_Transport L_Transport P_Transport.
Import ListNotations.
Open Scope R_scope.

(** tables that give positive species values at a temperature *)
Definition goodTables (t : ktab) (T : R) : Prop :=
  (1 <= kN t)%Z /\ positiveOn (kN t) (kMW t) /\ positiveOn (kN t) (speciesMu t T) /\ positiveOn (kN t) (speciesKappa t T) /\
  (forall n m slot, (0 <= n < m)%Z -> (m < kN t)%Z -> holdsPair (kN t) slot n m -> 0 < binaryD t slot T).
Lemma pairD_pos t T n m : goodTables t T -> (0 <= n < kN t)%Z -> (0 <= m < kN t)%Z -> n <> m -> 0 < pairD t T n m.
Proof.
  intros (_ & _ & _ & _ & G) Hn Hm N. unfold pairD. apply (G (Z.min n m) (Z.max n m)); [lia|lia|]. apply C73_index_is_slot; lia.
Qed.
Lemma others_pos ns n f k : (forall m, (0 <= m < ns)%Z -> m <> n -> 0 <= f m) -> (0 <= k < ns)%Z -> k <> n -> 0 < f k -> 0 < others ns n f.
Proof.
  intros A Hk N P. unfold others. apply (sumZ_pos 0 ns _ k); auto.
  - intros i Hi. destruct (Z.eqb_spec i n); [lra|auto].
  - destruct (Z.eqb_spec k n); [contradiction|auto].
Qed.
Lemma others_sum ns n f : (0 <= n < ns)%Z -> sumZ 0 ns f = f n + others ns n f.
Proof.
  intros Hn. unfold others.
  assert (D : sumZ 0 ns (fun m => if (m =? n)%Z then f n else 0) = f n).
  { rewrite (sumZ_single ns n); auto; [now rewrite Z.eqb_refl|]. intros m Hm N. destruct (Z.eqb_spec m n); [contradiction|auto]. }
  rewrite <- D at 1. rewrite <- sumZ_plus. apply sumZ_ext. intros i Hi. destruct (Z.eqb_spec i n); [subst; ring|ring].
Qed.

Lemma other_present t c n : goodTables t (cellT c) -> validFracs (kN t) (cellY c) -> mixed t c -> (0 <= n < kN t)%Z ->
  exists k, (0 <= k < kN t)%Z /\ k <> n /\ 0 < moleFraction (kN t) (kMW t) (cellY c) k.
Proof.
  intros (H1 & A & _) V M Hn. pose proof (mole_weights _ _ _ H1 A V) as (W & S).
  destruct (Classical_Prop.classic (exists k, (0 <= k < kN t)%Z /\ k <> n /\ 0 < moleFraction (kN t) (kMW t) (cellY c) k)) as [|N]; auto. exfalso.
  apply (M n Hn). rewrite (sumZ_single _ n) in S; auto. intros k Hk Nk. destruct (Rle_lt_or_eq_dec _ _ (W k Hk)); [exfalso; apply N; eauto|auto].
Qed.
Lemma mixtureD_pos t c n : goodTables t (cellT c) -> validFracs (kN t) (cellY c) -> mixed t c -> 0 < cellP c -> (0 <= n < kN t)%Z ->
  0 < mixtureD t c (pairD t (cellT c)) n.
Proof.
  intros G V M HP Hn. destruct (other_present t c n G V M Hn) as (k & Hk & Nk & Pk). unfold mixtureD. cbv zeta.
  pose proof G as (H1 & A & _). pose proof (mole_weights _ _ _ H1 A V) as (W & S). set (X := moleFraction (kN t) (kMW t) (cellY c)) in *.
  assert (P1 : 0 < others (kN t) n (fun m => X m / pairD t (cellT c) n m)).
  { apply (others_pos _ _ _ k); auto.
    - intros m Hm Nm. apply Rmult_le_pos; [auto|]. left. apply Rinv_0_lt_compat, pairD_pos; auto.
    - apply Rmult_lt_0_compat; auto. apply Rinv_0_lt_compat, pairD_pos; auto. }
  assert (P2 : 0 < others (kN t) n (fun m => X m * kMW t m / pairD t (cellT c) n m)).
  { apply (others_pos _ _ _ k); auto.
    - intros m Hm Nm. apply Rmult_le_pos; [apply Rmult_le_pos; [auto|left; auto]|]. left. apply Rinv_0_lt_compat, pairD_pos; auto.
    - apply Rmult_lt_0_compat; [apply Rmult_lt_0_compat; auto|]. apply Rinv_0_lt_compat, pairD_pos; auto. }
  assert (P3 : 0 < sumZ 0 (kN t) (fun m => X m * kMW t m) - kMW t n * X n).
  { rewrite (others_sum _ n) by auto. replace (X n * kMW t n + _ - _) with (others (kN t) n (fun m => X m * kMW t m)) by ring.
    apply (others_pos _ _ _ k); auto; [intros m Hm Nm; apply Rmult_le_pos; [auto|left; auto]|apply Rmult_lt_0_compat; auto]. }
  set (a := others (kN t) n (fun m => X m / pairD t (cellT c) n m)) in *. set (b := others (kN t) n (fun m => X m * kMW t m / pairD t (cellT c) n m)) in *.
  set (d := sumZ 0 (kN t) (fun m => X m * kMW t m) - kMW t n * X n) in *.
  assert (0 <= b * (cellP c * X n / d)).
  { apply Rmult_le_pos; [lra|]. apply Rmult_le_pos; [apply Rmult_le_pos; [lra|auto]|]. left. now apply Rinv_0_lt_compat. }
  assert (0 < a * cellP c) by nra. unfold Rdiv. rewrite Rmult_1_l. apply Rinv_0_lt_compat. unfold Rdiv in H. lra.
Qed.
Lemma freshOutput_eq t c : freshOutput t c = snd (ktOne t zeroScratch c).
Proof. unfold freshOutput, kineticTheory, ktThread. destruct (ktOne t zeroScratch c). reflexivity. Qed.
(** the first cell a thread handles *)
Theorem C74_kineticTheory_positive_partial : forall t c, goodTables t (cellT c) -> validFracs (kN t) (cellY c) -> mixed t c -> 0 < cellP c ->
  forall l, (0 <= l <= kN t + 1)%Z -> 0 < freshOutput t c l.
Proof.
  intros t c G V M HP l Hl. rewrite freshOutput_eq. unfold zeroScratch. destruct (ktCell_mixed t (fun _ => 0) (fun _ => 0) c M) as (E0 & E1 & ED & _). cbv zeta in *.
  pose proof G as (H1 & A & B & C & _). pose proof (mole_weights _ _ _ H1 A V) as W.
  destruct (Z.eqb_spec l 0) as [->|]; [rewrite E0; now apply mixMu_pos|]. destruct (Z.eqb_spec l 1) as [->|]; [rewrite E1; now apply mixKappa_pos|].
  replace l with (2 + (l - 2))%Z by lia. rewrite ED by lia. apply mixtureD_pos; auto. lia.
Qed.

(** ** C110 *)
Lemma nth_combine (cs : list ktInput) : forall (k i : nat) c, nth_error cs i = Some c -> nth_error (combine (seq k (List.length cs)) cs) i = Some ((k + i)%nat, c).
Proof.
  induction cs as [|a cs IH]; intros k i c H; [destruct i; discriminate|]. cbn [List.length seq combine]. destruct i as [|i]; cbn [nth_error] in *.
  - rewrite Nat.add_0_r. congruence.
  - rewrite (IH (S k) i c H). do 2 f_equal. lia.
Qed.
Lemma nsOutput t junk cs i c : nth_error cs i = Some c ->
  nth_error (kineticTheoryNS t junk cs) i = Some (snd (ktOne t (mkSc (junk i) (fun _ => 0) (fun _ => 0) (fun _ _ => 0) (fun _ => 0)) c)).
Proof. intros H. unfold kineticTheoryNS. rewrite nth_error_map, (nth_combine cs 0 i c H). reflexivity. Qed.
Lemma moleFraction_same t c c' n : sameState t c c' -> (0 <= n < kN t)%Z -> moleFraction (kN t) (kMW t) (cellY c) n = moleFraction (kN t) (kMW t) (cellY c') n.
Proof.
  intros (_ & _ & E) Hn. unfold moleFraction. rewrite (withLast_ext _ _ _ E n Hn). f_equal. apply sumZ_ext. intros i Hi. now rewrite (withLast_ext _ _ _ E i Hi).
Qed.
(** in the NSCOMPILE build a mixed cell's properties depend on its own state only *)
Theorem C110_nscompile_partial : forall t junk junk' cs cs' i i' c c', nth_error cs i = Some c -> nth_error cs' i' = Some c' -> sameState t c c' -> mixed t c ->
  exists o o', nth_error (kineticTheoryNS t junk cs) i = Some o /\ nth_error (kineticTheoryNS t junk' cs') i' = Some o' /\
  forall l, (0 <= l <= kN t + 1)%Z -> o l = o' l.
Proof.
  intros t junk junk' cs cs' i i' c c' Hc Hc' SS M. rewrite (nsOutput t junk cs i c Hc), (nsOutput t junk' cs' i' c' Hc'). eexists. eexists. split; [reflexivity|]. split; [reflexivity|].
  pose proof SS as (EP & ET & EY).
  assert (M' : mixed t c') by (intros n Hn; rewrite <- (moleFraction_same t c c' n SS Hn); auto).
  destruct (ktCell_mixed t (junk i) (fun _ => 0) c M) as (A0 & A1 & AD & _). destruct (ktCell_mixed t (junk' i') (fun _ => 0) c' M') as (B0 & B1 & BD & _). cbv zeta in *.
  intros l Hl. destruct (Z.eqb_spec l 0) as [->|]; [rewrite A0, B0, ET; apply mixMu_ext; auto; intros; now apply moleFraction_same|].
  destruct (Z.eqb_spec l 1) as [->|]; [rewrite A1, B1, ET; apply mixKappa_ext; auto; intros; now apply moleFraction_same|].
  replace l with (2 + (l - 2))%Z by lia. rewrite AD, BD by lia. unfold mixtureD. cbv zeta. rewrite EP, ET.
  rewrite (moleFraction_same t c c' (l - 2) SS) by lia.
  rewrite (sumZ_ext _ _ (fun m => moleFraction (kN t) (kMW t) (cellY c) m * kMW t m) (fun m => moleFraction (kN t) (kMW t) (cellY c') m * kMW t m)) by (intros m Hm; now rewrite (moleFraction_same t c c' m SS)).
  rewrite (others_ext _ _ (fun m => moleFraction (kN t) (kMW t) (cellY c) m / _) (fun m => moleFraction (kN t) (kMW t) (cellY c') m / pairD t (cellT c') (l - 2) m)) by (intros m Hm; now rewrite (moleFraction_same t c c' m SS)).
  rewrite (others_ext _ _ (fun m => moleFraction (kN t) (kMW t) (cellY c) m * kMW t m / _) (fun m => moleFraction (kN t) (kMW t) (cellY c') m * kMW t m / pairD t (cellT c') (l - 2) m)) by (intros m Hm; now rewrite (moleFraction_same t c c' m SS)).
  reflexivity.
Qed.
(** the default build: two cells in the same state, handled one after the other by a thread, get different viscosities *)
Definition kt1 : ktab := mkKt 1 (fun _ => 1) (fun _ ply => if (ply =? 0)%Z then 1 else 0) (fun _ ply => if (ply =? 0)%Z then 1 else 0) (fun _ ply => if (ply =? 0)%Z then 1 else 0).
Definition cell1 : ktInput := (1, 1, (fun _ => 0), (fun _ => 0)).
Lemma kt1_mu sc m : sMu sc 0%Z = m -> 0 < (m + 1) ^ 2 ->
  snd (ktOne kt1 sc cell1) 0%Z = (m + 1) ^ 2 /\ sMu (fst (ktOne kt1 sc cell1)) 0%Z = (m + 1) ^ 2.
Proof.
  intros E P. unfold ktOne, cell1, ktCell. cbv zeta. cbn [kt1 kN kMW]. change (zrange 0 1) with [0%Z]. cbn [moleLoop].
  assert (EX : trY 1 (fun _ => 0) 0%Z / 1 / trMass 1 (fun _ => 1) (trY 1 (fun _ => 0)) = 1).
  { unfold trMass, accum. change (zrange 0 1) with [0%Z]. cbn [fold_left]. unfold trY. cbn [Z.sub Z.opp Z.add Z.pos_sub Z.eqb]. unfold lastY. change (zrange 0 (1 - 1)) with (@nil Z). cbn [fold_left]. field. }
  rewrite EX. destruct (Req_EM_T 1 1) as [_|N]; [|now elim N]. cbn [fst snd Z.eqb sMu andb Z.leb Z.ltb Z.compare].
  assert (EM : (polyInto (sMu sc 0%Z) (fun ply : Z => if (ply =? 0)%Z then 1 else 0) (ln 1) * sqrt (sqrt 1)) ^ 2 = (m + 1) ^ 2).
  { rewrite polyInto_quartic, E, ln_1, !sqrt_1. unfold quartic. cbn [Z.eqb]. ring. }
  split; [|exact EM].
  rewrite (mixMu_pure 1 _ _ _ 0%Z); [cbn [andb Z.leb Z.ltb Z.compare]; exact EM|lia|lra| |].
  - cbn [andb Z.leb Z.ltb Z.compare]. cbn [kt1 kMuPoly]. rewrite EM. exact P.
  - intros n Hn. assert (n = 0)%Z by lia. subst. unfold upd. reflexivity.
Qed.
Theorem C110_default_build_refuted : exists t c o1 o2, goodTables t (cellT c) /\ validFracs (kN t) (cellY c) /\ 0 < cellP c /\
  kineticTheory t [c; c] = [o1; o2] /\ o1 0%Z <> o2 0%Z.
Proof.
  unfold kineticTheory. cbn [ktThread]. exists kt1, cell1.
  destruct (kt1_mu zeroScratch 0 eq_refl ltac:(lra)) as (A & B). destruct (kt1_mu (fst (ktOne kt1 zeroScratch cell1)) ((0 + 1) ^ 2) B ltac:(lra)) as (C & _).
  destruct (ktOne kt1 zeroScratch cell1) as (sc1, o1). cbn [fst snd] in *. destruct (ktOne kt1 sc1 cell1) as (sc2, o2). cbn [snd] in C. exists o1, o2.
  assert (T : cellT cell1 = 1) by reflexivity. rewrite T.
  split; [|split; [split; [intros; unfold cellY, cell1; cbn [fst snd]; lra|rewrite sumZ_empty by (cbn [kt1 kN]; lia); lra]|split; [unfold cellP, cell1; cbn [fst]; lra|split; [reflexivity|]]]].
  - split; [cbn [kt1 kN]; lia|]. split; [intros n Hn; cbn [kt1 kMW]; lra|].
    split; [intros n Hn; unfold speciesMu, quartic; cbn [kt1 kMuPoly Z.eqb]; rewrite !sqrt_1; ring_simplify; lra|].
    split; [intros n Hn; unfold speciesKappa, quartic; cbn [kt1 kKappaPoly Z.eqb]; rewrite !sqrt_1; ring_simplify; lra|].
    intros n m slot H1 H2. cbn [kt1 kN] in H2. lia.
  - rewrite A, C. lra.
Qed.
(** the NSCOMPILE build, gas of pure species 0 of 2: the conductivity depends on the uninitialised array *)
Definition kt2 : ktab := mkKt 2 (fun _ => 1) (fun _ ply => if (ply =? 0)%Z then 1 else 0) (fun _ ply => if (ply =? 0)%Z then 1 else 0) (fun _ ply => if (ply =? 0)%Z then 1 else 0).
Definition pure0 : ktInput := (1, 1, (fun _ => 1), (fun _ => 0)).
Lemma kt2_kappa X0 : snd (ktOne kt2 (mkSc X0 (fun _ => 0) (fun _ => 0) (fun _ _ => 0) (fun _ => 0)) pure0) 1%Z = 5/10 * (1 + X0 1%Z + 1 / (1 + X0 1%Z)).
Proof.
  unfold ktOne, pure0, ktCell. cbv zeta. cbn [kt2 kN kMW sX sMu sKappa sDij sD]. change (zrange 0 2) with [0%Z; 1%Z]. cbn [moleLoop].
  assert (EX : trY 2 (fun _ => 1) 0%Z / 1 / trMass 2 (fun _ => 1) (trY 2 (fun _ => 1)) = 1).
  { unfold trMass, accum. change (zrange 0 2) with [0%Z; 1%Z]. cbn [fold_left]. unfold trY. cbn [Z.sub Z.opp Z.add Z.pos_sub Pos.pred_double Z.eqb Pos.eqb]. unfold lastY. change (zrange 0 (2 - 1)) with [0%Z]. cbn [fold_left]. field. }
  rewrite EX. destruct (Req_EM_T 1 1) as [_|N]; [|now elim N]. cbn [fst snd Z.eqb Pos.eqb].
  unfold mixKappa, accum. change (zrange 0 2) with [0%Z; 1%Z]. cbn [fold_left]. cbn [kt2 kKappaPoly]. cbn [andb Z.leb Z.ltb Z.compare Pos.compare Pos.compare_cont]. unfold upd. cbn [Z.eqb].
  rewrite !polyInto_quartic, ln_1, !sqrt_1. unfold quartic. cbn [Z.eqb].
  replace ((0 + (1 + 0 * 0 + 0 * 0 ^ 2 + 0 * 0 ^ 3 + 0 * 0 ^ 4)) * 1) with 1 by ring. f_equal. f_equal; [ring|f_equal; field].
Qed.
Lemma kt_good2 : goodTables kt2 1.
Proof.
  split; [cbn [kt2 kN]; lia|]. split; [intros n Hn; cbn [kt2 kMW]; lra|].
  split; [intros n Hn; unfold speciesMu, quartic; cbn [kt2 kMuPoly Z.eqb]; rewrite !sqrt_1; ring_simplify; lra|].
  split; [intros n Hn; unfold speciesKappa, quartic; cbn [kt2 kKappaPoly Z.eqb]; rewrite !sqrt_1; ring_simplify; lra|].
  intros n m slot H1 H2 _. unfold binaryD, quartic. cbn [kt2 kDijPoly Z.eqb]. rewrite !sqrt_1. ring_simplify. lra.
Qed.
Theorem C110_nscompile_pure_refuted : exists t junk junk' c o o', goodTables t (cellT c) /\ validFracs (kN t) (cellY c) /\ 0 < cellP c /\ pureGas (kN t) 0 (cellY c) /\
  kineticTheoryNS t junk [c] = [o] /\ kineticTheoryNS t junk' [c] = [o'] /\ o 1%Z <> o' 1%Z.
Proof.
  exists kt2, (fun _ _ => 0), (fun _ _ => 1), pure0. eexists. eexists.
  split; [exact kt_good2|]. split.
  { split; [intros; unfold cellY, pure0; cbn [fst snd]; lra|]. cbn [kt2 kN]. unfold sumZ. change (zrange 0 (2 - 1)) with [0%Z]. unfold cellY, pure0. cbn [fst snd map fold_right]. lra. }
  split; [unfold cellP, pure0; cbn [fst]; lra|]. split.
  { cbn [kt2 kN]. intros n Hn. assert (n = 0 \/ n = 1)%Z as [->| ->] by lia; unfold withLast, sumZ, cellY, pure0; change (zrange 0 (2 - 1)) with [0%Z]; cbn [fst snd map fold_right Z.eqb Pos.eqb Z.sub Z.opp Z.add Z.pos_sub Pos.pred_double]; ring. }
  split; [reflexivity|]. split; [reflexivity|]. rewrite !kt2_kappa. lra.
Qed.

(** ** C111: a binary mixture diffuses with the binary coefficient at the local pressure, both species alike *)
Theorem C111_binary_mixture : forall t c, kN t = 2%Z -> goodTables t (cellT c) -> validFracs 2 (cellY c) -> mixed t c -> 0 < cellP c ->
  exists slot, holdsPair 2 slot 0 1 /\ freshOutput t c 2%Z = binaryD t slot (cellT c) / cellP c /\ freshOutput t c 3%Z = binaryD t slot (cellT c) / cellP c.
Proof.
  intros t c N G V M HP. exists (dijIndex 2 0 1). split; [apply C73_index_is_slot; lia|].
  rewrite freshOutput_eq. unfold zeroScratch. destruct (ktCell_mixed t (fun _ => 0) (fun _ => 0) c M) as (_ & _ & ED & _). cbv zeta in ED.
  assert (E2 := ED 0%Z ltac:(lia)). assert (E3 := ED 1%Z ltac:(lia)). change (2 + 0)%Z with 2%Z in E2. change (2 + 1)%Z with 3%Z in E3. rewrite E2, E3. clear E2 E3 ED.
  unfold mixtureD, pairD, others. rewrite N. cbv zeta. unfold sumZ. change (zrange 0 2) with [0%Z; 1%Z]. cbn [map fold_right Z.eqb Pos.eqb].
  change (Z.min 0 1) with 0%Z. change (Z.max 0 1) with 1%Z. change (Z.min 1 0) with 0%Z. change (Z.max 1 0) with 1%Z.
  assert (P01 : 0 < binaryD t (dijIndex 2 0 1) (cellT c)).
  { pose proof (pairD_pos t (cellT c) 0 1 G ltac:(lia) ltac:(lia) ltac:(lia)) as Q. unfold pairD in Q. rewrite N in Q. exact Q. }
  set (d := binaryD t (dijIndex 2 0 1) (cellT c)) in *. clearbody d.
  pose proof G as (_ & A & _). rewrite N in A. pose proof (mole_sum 2 (kMW t) (cellY c) ltac:(lia) A V) as S.
  assert (M0 := M 0%Z ltac:(lia)). assert (M1 := M 1%Z ltac:(lia)). rewrite N in M0, M1.
  unfold sumZ in S. change (zrange 0 2) with [0%Z; 1%Z] in S. cbn [map fold_right] in S.
  set (x0 := moleFraction 2 (kMW t) (cellY c) 0) in *. set (x1 := moleFraction 2 (kMW t) (cellY c) 1) in *. clearbody x0 x1.
  assert (x1 = 1 - x0) by lra. subst x1. assert (A0 := A 0%Z ltac:(lia)). assert (A1 := A 1%Z ltac:(lia)). set (m0 := kMW t 0%Z) in *. set (m1 := kMW t 1%Z) in *. clearbody m0 m1.
  assert (N0 : x0 <> 0) by lra. assert (N1 : 1 - x0 <> 0) by lra.
  replace (x0 * m0 + ((1 - x0) * m1 + 0) - m0 * x0) with ((1 - x0) * m1) by ring.
  replace (x0 * m0 + ((1 - x0) * m1 + 0) - m1 * (1 - x0)) with (x0 * m0) by ring.
  set (p := cellP c) in *. clearbody p.
  split.
  - replace ((0 + ((1 - x0) / d + 0)) * p + (0 + ((1 - x0) * m1 / d + 0)) * (p * x0 / ((1 - x0) * m1))) with (p / d) by (field; repeat split; lra). field. lra.
  - replace ((x0 / d + (0 + 0)) * p + (x0 * m0 / d + (0 + 0)) * (p * (1 - x0) / (x0 * m0))) with (p / d) by (field; repeat split; lra). field. lra.
Qed.
(** a half-half mixture of the two species of kt2 *)
Definition half2 : ktInput := (2, 1, (fun _ => 1/2), (fun _ => 0)).
Example C111_nonvacuous : kN kt2 = 2%Z /\ goodTables kt2 (cellT half2) /\ validFracs 2 (cellY half2) /\ mixed kt2 half2 /\ 0 < cellP half2.
Proof.
  split; [reflexivity|]. split; [exact kt_good2|]. split.
  { split; [intros; unfold cellY, half2; cbn [fst snd]; lra|]. unfold sumZ. change (zrange 0 (2 - 1)) with [0%Z]. unfold cellY, half2. cbn [fst snd map fold_right]. lra. }
  split; [|unfold cellP, half2; cbn [fst]; lra].
  intros n Hn. cbn [kt2 kN kMW] in *. assert (n = 0 \/ n = 1)%Z as [->| ->] by lia; unfold moleFraction, withLast, sumZ, cellY, half2;
  change (zrange 0 (2 - 1)) with [0%Z]; change (zrange 0 2) with [0%Z; 1%Z]; cbn [fst snd map fold_right Z.eqb Pos.eqb Z.sub Z.opp Z.add Z.pos_sub Pos.pred_double].
  - replace (1 / 2 / 1 / (1 / 2 / 1 + ((1 - (1 / 2 + 0)) / 1 + 0))) with (1/2) by field. lra.
  - replace ((1 - (1 / 2 + 0)) / 1 / (1 / 2 / 1 + ((1 - (1 / 2 + 0)) / 1 + 0))) with (1/2) by field. lra.
Qed.
Print Assumptions C73_index_bijective.
Print Assumptions C110_default_build_refuted.
Print Assumptions C111_binary_mixture.
