(** Transport properties: C73, C74, C110, C111. *)
From Coq Require Import Reals ZArith List Bool Lia Lra Psatz.
From Verif Require Import M_Topology M_Halo M_Grid M_Metrics S_Metrics S_Sum M_Flux M_FluxKernels S_FluxKernels M_Thermo S_Thermo L_Grid1 L_Sum L_Thermo M_Transport S_Transport L_Transport.
Import ListNotations.
Open Scope R_scope.

(** ** C73 *)
Lemma half_prod a : exists k, (a * (a - 1) = 2 * k)%Z.
Proof. destruct (Z.Even_or_Odd a) as [(k, ->)|(k, ->)]; [exists (k * (2 * k - 1))%Z|exists (k * (2 * k + 1))%Z]; ring. Qed.
Lemma half_exact a : (2 * (a * (a - 1) / 2) = a * (a - 1))%Z.
Proof. destruct (half_prod a) as (k, ->). replace (2 * k)%Z with (k * 2)%Z by ring. rewrite Z.div_mul by lia. ring. Qed.
Lemma dijIndex_twice ns n n2 : (2 * dijIndex ns n n2 = n * (2 * ns - n + 1) + 2 * (n2 - n))%Z.
Proof. unfold dijIndex. rewrite Z.mul_add_distr_l, Z.mul_sub_distr_l, !half_exact. ring. Qed.
Lemma zrange_cons' lo hi : (lo < hi)%Z -> zrange lo hi = lo :: zrange (lo + 1) hi.
Proof.
  intros H. unfold zrange. replace (Z.to_nat (hi - lo)) with (S (Z.to_nat (hi - (lo + 1)))) by lia. cbn [seq map]. f_equal; [lia|].
  rewrite <- seq_shift, map_map. apply map_ext. intros. lia.
Qed.
Lemma zrange_len lo hi : List.length (zrange lo hi) = Z.to_nat (hi - lo).
Proof. unfold zrange. now rewrite map_length, seq_length. Qed.
Lemma zrange_nth lo hi i : (0 <= i < hi - lo)%Z -> nth_error (zrange lo hi) (Z.to_nat i) = Some (lo + i)%Z.
Proof.
  intros H. unfold zrange. rewrite nth_error_map. rewrite (nth_error_nth' _ 0%nat) by (rewrite seq_length; lia). rewrite seq_nth by lia. cbn [option_map]. f_equal. lia.
Qed.
Lemma rows_nth ns n n2 : forall d m p, (0 <= d)%Z -> (n = m + d)%Z -> (n <= n2 < ns)%Z -> (2 * p = d * (2 * ns - 2 * m - d + 1) + 2 * (n2 - n))%Z ->
  nth_error (flat_map (fun k => map (fun j => (k, j)) (zrange k ns)) (zrange m ns)) (Z.to_nat p) = Some (n, n2).
Proof.
  intros d m p Hd. revert m p. pattern d. apply natlike_ind; [| |exact Hd]; clear d Hd.
  - intros m p -> H2 Hp. rewrite zrange_cons' by lia. cbn [flat_map]. rewrite nth_error_app1 by (rewrite map_length, zrange_len; lia).
    rewrite nth_error_map, zrange_nth by lia. cbn [option_map]. do 2 f_equal; lia.
  - intros x Hx IH m p -> H2 Hp. rewrite zrange_cons' by lia. cbn [flat_map].
    rewrite nth_error_app2 by (rewrite map_length, zrange_len; nia). rewrite map_length, zrange_len.
    replace (Z.to_nat p - Z.to_nat (ns - m))%nat with (Z.to_nat (p - (ns - m))) by nia. apply IH; nia.
Qed.
Lemma rows_len ns : (0 <= ns)%Z -> (2 * Z.of_nat (List.length (dijRows ns)) = ns * (ns + 1))%Z.
Proof.
  intros H. unfold dijRows.
  assert (G : forall d, (0 <= d)%Z -> forall m, (m = ns - d)%Z -> (2 * Z.of_nat (List.length (flat_map (fun k => map (fun j => (k, j)) (zrange k ns)) (zrange m ns))) = d * (d + 1))%Z).
  { intros d Hd. pattern d. apply natlike_ind; [| |exact Hd]; clear d Hd.
    - intros m ->. rewrite zrange_empty by lia. reflexivity.
    - intros x Hx IH m E. rewrite zrange_cons' by lia. cbn [flat_map]. rewrite app_length, map_length, zrange_len, Nat2Z.inj_add. rewrite Z.mul_add_distr_l, (IH (m + 1)%Z) by lia. lia. }
  apply G; lia.
Qed.
(** the row the kernel reads for a pair is the one the table builder wrote for it *)
Theorem C73_index_is_slot : forall ns n n2, (0 <= n <= n2)%Z -> (n2 < ns)%Z ->
  holdsPair ns (dijIndex ns n n2) n n2 /\ (dijIndex ns n n2 < Z.of_nat (List.length (dijRows ns)))%Z.
Proof.
  intros ns n n2 A B. pose proof (dijIndex_twice ns n n2) as T. split.
  - split; [nia|]. unfold dijRows. apply (rows_nth ns n n2 n 0); lia.
  - pose proof (rows_len ns ltac:(lia)). nia.
Qed.
Theorem C73_index_bijective : forall ns, (0 <= ns)%Z ->
  (2 * Z.of_nat (List.length (dijRows ns)) = ns * (ns + 1))%Z /\
  (forall n n2 m m2, (0 <= n <= n2)%Z -> (n2 < ns)%Z -> (0 <= m <= m2)%Z -> (m2 < ns)%Z -> dijIndex ns n n2 = dijIndex ns m m2 -> n = m /\ n2 = m2) /\
  (forall i, (0 <= i < Z.of_nat (List.length (dijRows ns)))%Z -> exists n n2, (0 <= n <= n2)%Z /\ (n2 < ns)%Z /\ dijIndex ns n n2 = i).
Proof.
  intros ns H. split; [now apply rows_len|]. split.
  - intros n n2 m m2 A B C D E. destruct (C73_index_is_slot ns n n2 A B) as ((_ & X) & _). destruct (C73_index_is_slot ns m m2 C D) as ((_ & Y) & _).
    rewrite E, Y in X. assert (Q : (m, m2) = (n, n2)) by congruence. split; congruence.
  - intros i Hi. destruct (nth_error (dijRows ns) (Z.to_nat i)) as [[n n2]|] eqn:E; [|apply nth_error_None in E; lia].
    pose proof (nth_error_In _ _ E) as I. unfold dijRows in I. apply in_flat_map in I. destruct I as (k & Hk & I). apply in_map_iff in I. destruct I as (j & Ej & Hj).
    apply zrange_in in Hk. apply zrange_in in Hj. assert (k = n /\ j = n2) as (-> & ->) by (split; congruence).
    exists n, n2. split; [lia|]. split; [lia|].
    (* positions of distinct pairs are distinct, so i is the position *)
    destruct (C73_index_is_slot ns n n2 ltac:(lia) ltac:(lia)) as ((P & X) & LT).
    assert (ND : NoDup (dijRows ns)).
    { unfold dijRows. assert (Gn : forall l, NoDup l -> NoDup (flat_map (fun k => map (fun j => (k, j)) (zrange k ns)) l)).
      { induction l as [|a l IH]; intros Hn; cbn [flat_map]; [constructor|]. inversion Hn as [|? ? Na Nl]; subst. specialize (IH Nl).
        assert (N1 : NoDup (map (fun j => (a, j)) (zrange a ns))) by (apply FinFun.Injective_map_NoDup; [intros x y Q; congruence|apply zrange_nodup]).
        assert (Dj : forall x, In x (map (fun j => (a, j)) (zrange a ns)) -> ~ In x (flat_map (fun k => map (fun j => (k, j)) (zrange k ns)) l)).
        { intros x Hx Hy. apply in_map_iff in Hx. destruct Hx as (j & <- & _). apply in_flat_map in Hy. destruct Hy as (k & Ik & Hy). apply in_map_iff in Hy. destruct Hy as (j' & Q & _). apply Na. congruence. }
        clear - IH N1 Dj. induction (map (fun j => (a, j)) (zrange a ns)) as [|b l' IH']; cbn [app]; auto. inversion N1; subst. constructor.
        - intros Q. apply in_app_or in Q. destruct Q; [contradiction|]. apply (Dj b); [now left|auto].
        - apply IH'; auto. intros x Hx. apply Dj. now right. }
      apply Gn, zrange_nodup. }
    rewrite NoDup_nth_error in ND. assert (Z.to_nat (dijIndex ns n n2) = Z.to_nat i); [|lia]. apply ND; [lia|]. now rewrite X, E.
Qed.
Example C73_nonvacuous : dijIndex 4 1 3 = 6%Z /\ dijRows 4 = [(0,0);(0,1);(0,2);(0,3);(1,1);(1,2);(1,3);(2,2);(2,3);(3,3)]%Z.
Proof. split; reflexivity. Qed.

(** ** C74: constant species properties *)
Theorem C74_constantProps_positive : forall ns mw mu0 kappa0 y rho cp qt l, (1 <= ns)%Z -> positiveOn ns mw -> positiveOn ns mu0 -> positiveOn ns kappa0 ->
  validFracs ns y -> 0 < rho -> 0 < cp -> (0 <= l <= ns + 1)%Z -> 0 < constantProps ns mw mu0 kappa0 y rho cp qt l.
Proof.
  intros ns mw mu0 kappa0 y rho cp qt l H1 A B C V Hr Hc Hl. unfold constantProps. cbv zeta.
  rewrite (mixMu_ext ns mw mu0 mu0 _ (moleFraction ns mw y)), (mixKappa_ext ns kappa0 kappa0 _ (moleFraction ns mw y)) by (auto; intros; apply trX_mole).
  pose proof (mole_weights ns mw y H1 A V) as W. pose proof (mixMu_pos ns mw mu0 _ A B W). pose proof (mixKappa_pos ns kappa0 _ C W).
  destruct (Z.eqb_spec l 0); [auto|]. destruct (Z.eqb_spec l 1); [auto|]. destruct ((2 <=? l) && (l <=? 2 + ns - 1))%Z%bool eqn:E.
  - apply Rmult_lt_0_compat; auto. apply Rinv_0_lt_compat. nra.
  - exfalso. apply andb_false_iff in E. rewrite !Z.leb_gt in E. lia.
Qed.
Theorem C74_constantProps_pure : forall ns mw mu0 kappa0 y rho cp qt s, (0 <= s < ns)%Z -> positiveOn ns mw -> positiveOn ns mu0 -> positiveOn ns kappa0 ->
  pureGas ns s y -> constantProps ns mw mu0 kappa0 y rho cp qt 0%Z = mu0 s /\ constantProps ns mw mu0 kappa0 y rho cp qt 1%Z = kappa0 s.
Proof.
  intros ns mw mu0 kappa0 y rho cp qt s Hs A B C P. unfold constantProps. cbv zeta. cbn [Z.eqb Pos.eqb].
  assert (X : forall n, (0 <= n < ns)%Z -> trX ns mw (trY ns y) n = if (n =? s)%Z then 1 else 0) by (intros; rewrite trX_mole; apply mole_pure; auto).
  split; [apply mixMu_pure; auto|apply mixKappa_pure; auto]. specialize (C s Hs). lra.
Qed.
Theorem C74_constantProps_conductivity_between : forall ns mw mu0 kappa0 y rho cp qt lo hi, (1 <= ns)%Z -> positiveOn ns mw -> validFracs ns y -> 0 < lo ->
  (forall n, (0 <= n < ns)%Z -> lo <= kappa0 n <= hi) -> lo <= constantProps ns mw mu0 kappa0 y rho cp qt 1%Z <= hi.
Proof.
  intros ns mw mu0 kappa0 y rho cp qt lo hi H1 A V L K. unfold constantProps. cbv zeta. cbn [Z.eqb Pos.eqb].
  rewrite (mixKappa_ext ns kappa0 kappa0 _ (moleFraction ns mw y)) by (auto; intros; apply trX_mole). apply mixKappa_between; auto. now apply mole_weights.
Qed.
(** every species diffuses as fast as heat: Lewis number one *)
Theorem C74_constantProps_unity_lewis : forall ns mw mu0 kappa0 y rho cp qt n, (0 <= n < ns)%Z -> rho * cp <> 0 ->
  let p := constantProps ns mw mu0 kappa0 y rho cp qt in p 1%Z = rho * cp * p (2 + n)%Z.
Proof.
  intros ns mw mu0 kappa0 y rho cp qt n Hn Hr. cbv zeta. unfold constantProps. cbv zeta. cbn [Z.eqb Pos.eqb].
  destruct (Z.eqb_spec (2 + n) 0); [lia|]. destruct (Z.eqb_spec (2 + n) 1); [lia|].
  replace ((2 <=? 2 + n) && (2 + n <=? 2 + ns - 1))%Z%bool with true by (symmetry; rewrite andb_true_iff, !Z.leb_le; lia).
  set (k := mixKappa _ _ _). field. split; intros E; apply Hr; rewrite E; ring.
Qed.
Example C74_nonvacuous : positiveOn 3 (fun n => IZR n + 1) /\ validFracs 3 (fun _ => 1/4) /\ pureGas 3 1 (fun n => if (n =? 1)%Z then 1 else 0).
Proof.
  split; [intros n Hn; assert (0 <= IZR n) by (apply IZR_le; lia); lra|]. split.
  - split; [intros; lra|]. unfold sumZ. change (zrange 0 (3 - 1)) with [0; 1]%Z. cbn [map fold_right]. lra.
  - intros n Hn. unfold withLast, sumZ. change (zrange 0 (3 - 1)) with [0; 1]%Z. cbn [map fold_right Z.eqb Pos.eqb]. assert (n = 0 \/ n = 1 \/ n = 2)%Z as [->|[->| ->]] by lia; cbn; lra.
Qed.

(** ** the kinetic-theory kernel *)
Definition freshOutput (t : ktab) (c : ktInput) : Z -> R := match kineticTheory t [c] with o :: _ => o | [] => fun _ => 0 end.
Lemma moleLoop_nonpure t y X0 : (forall n, (0 <= n < kN t)%Z -> moleFraction (kN t) (kMW t) y n <> 1) ->
  exists X, moleLoop (kMW t) (trY (kN t) y) (trMass (kN t) (kMW t) (trY (kN t) y)) (zrange 0 (kN t)) X0 0 =
    (X, sumZ 0 (kN t) (fun n => moleFraction (kN t) (kMW t) y n * kMW t n), (-1)%Z) /\
  forall n, (0 <= n < kN t)%Z -> X n = moleFraction (kN t) (kMW t) y n.
Proof.
  intros H. destruct (moleLoop_mixed (kMW t) (trY (kN t) y) (trMass (kN t) (kMW t) (trY (kN t) y)) (zrange 0 (kN t)) X0 0) as (X & E & I & _).
  - apply zrange_nodup.
  - intros n Hn. apply zrange_in in Hn. change (trX (kN t) (kMW t) (trY (kN t) y) n <> 1). rewrite trX_mole. auto.
  - exists X. split; [|intros n Hn; rewrite I by (apply zrange_in; lia); apply trX_mole].
    rewrite E. do 2 f_equal. rewrite Rplus_0_l. unfold sumZ. f_equal. apply map_ext. intros n.
    change (trX (kN t) (kMW t) (trY (kN t) y) n * kMW t n = moleFraction (kN t) (kMW t) y n * kMW t n). now rewrite trX_mole.
Qed.
(** sum over the other species *)
Definition others (ns n : Z) (f : Z -> R) : R := sumZ 0 ns (fun m => if (m =? n)%Z then 0 else f m).
Lemma others_fold ns n f : fold_left (fun s n2 => if (n =? n2)%Z then s else s + f n2) (zrange 0 ns) 0 = others ns n f.
Proof.
  unfold others, sumZ.
  assert (G : forall l a, fold_left (fun s n2 => if (n =? n2)%Z then s else s + f n2) l a = a + fold_right Rplus 0 (map (fun m => if (m =? n)%Z then 0 else f m) l)).
  { induction l as [|m l IH]; intros a; cbn [fold_left fold_right map]; [ring|]. rewrite IH. rewrite (Z.eqb_sym n m). destruct (m =? n)%Z; ring. }
  rewrite G. ring.
Qed.
(** mixture-averaged diffusion coefficient from binary coefficients dij *)
Definition mixtureD (t : ktab) (c : ktInput) (dij : Z -> Z -> R) (n : Z) : R :=
  let X := moleFraction (kN t) (kMW t) (cellY c) in
  1 / (others (kN t) n (fun m => X m / dij n m) * cellP c +
       others (kN t) n (fun m => X m * kMW t m / dij n m) * (cellP c * X n / (sumZ 0 (kN t) (fun m => X m * kMW t m) - kMW t n * X n))).
Definition pairD (t : ktab) (T : R) (n m : Z) : R := binaryD t (dijIndex (kN t) (Z.min n m) (Z.max n m)) T.
Lemma others_ext ns n f g : (forall m, (0 <= m < ns)%Z -> f m = g m) -> others ns n f = others ns n g.
Proof. intros H. unfold others. apply sumZ_ext. intros i Hi. destruct (i =? n)%Z; auto. Qed.
(** with arrays that start at zero, a mixed cell gets the mixture values of its own state whatever X held before *)
Lemma ktCell_mixed t X0 D0 c : mixed t c ->
  let o := snd (ktOne t (mkSc X0 (fun _ => 0) (fun _ => 0) (fun _ _ => 0) D0) c) in
  o 0%Z = mixMu (kN t) (kMW t) (speciesMu t (cellT c)) (moleFraction (kN t) (kMW t) (cellY c)) /\
  o 1%Z = mixKappa (kN t) (speciesKappa t (cellT c)) (moleFraction (kN t) (kMW t) (cellY c)) /\
  (forall n, (0 <= n < kN t)%Z -> o (2 + n)%Z = mixtureD t c (pairD t (cellT c)) n) /\
  (forall l, (0 <= kN t)%Z -> (l < 0 \/ kN t + 2 <= l)%Z -> o l = snd c l).
Proof.
  destruct c as (((p, T), y), qt). intros M. cbv zeta. unfold ktOne, ktCell. unfold mixed, cellY, cellT, cellP in *. cbn [fst snd] in *. cbv zeta. cbn [sX sMu sKappa sDij sD].
  destruct (moleLoop_nonpure t y X0 M) as (X & E & HX). rewrite E. cbn [snd Z.eqb Pos.eqb].
  assert (IN : forall n, (0 <= n < kN t)%Z -> ((0 <=? n) && (n <? kN t))%Z%bool = true) by (intros; rewrite andb_true_iff, Z.leb_le, Z.ltb_lt; lia).
  split; [apply mixMu_ext; auto; intros n Hn; rewrite (IN n Hn), polyInto_quartic, Rplus_0_l; reflexivity|].
  split; [apply mixKappa_ext; auto; intros n Hn; rewrite (IN n Hn), polyInto_quartic, Rplus_0_l; reflexivity|].
  split.
  - intros n Hn. destruct (Z.eqb_spec (2 + n) 0); [lia|]. destruct (Z.eqb_spec (2 + n) 1); [lia|].
    replace ((2 <=? 2 + n) && (2 + n <=? 2 + kN t - 1))%Z%bool with true by (symmetry; rewrite andb_true_iff, !Z.leb_le; lia).
    replace (2 + n - 2)%Z with n by lia. rewrite (IN n Hn). unfold mixtureD, cellY, cellP. cbn [fst snd]. cbv zeta. rewrite !others_fold.
    assert (ED : forall m, (0 <= m < kN t)%Z -> (if (true && ((0 <=? m) && (m <? kN t))%Z)%bool then polyInto 0 (kDijPoly t (dijIndex (kN t) (Z.min n m) (Z.max n m))) (ln T) * (T * sqrt T) else 0) = pairD t T n m).
    { intros m Hm. rewrite (IN m Hm). cbn [andb]. rewrite polyInto_quartic, Rplus_0_l. reflexivity. }
    rewrite (others_ext (kN t) n (fun n2 => X n2 / _) (fun m => moleFraction (kN t) (kMW t) y m / pairD t T n m)) by (intros m Hm; now rewrite ED, HX).
    rewrite (others_ext (kN t) n (fun n2 => X n2 * kMW t n2 / _) (fun m => moleFraction (kN t) (kMW t) y m * kMW t m / pairD t T n m)) by (intros m Hm; now rewrite ED, HX).
    now rewrite HX.
  - intros l Hk Hl. destruct (Z.eqb_spec l 0); [lia|]. destruct (Z.eqb_spec l 1); [lia|].
    destruct ((2 <=? l) && (l <=? 2 + kN t - 1))%Z%bool eqn:Q; auto. apply andb_true_iff in Q. rewrite !Z.leb_le in Q. lia.
Qed.
