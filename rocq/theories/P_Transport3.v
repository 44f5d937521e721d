(** C124: kinetic theory with unity Lewis number.  C125: the dense-gas correlation of Chung et al. *)
From Coq Require Import Reals ZArith List Bool Lia Lra.
From Verif Require Import M_Topology M_Halo M_Grid S_Sum L_Sum M_Thermo S_Thermo L_Thermo M_Transport S_Transport L_Transport M_Transport3 S_Chung.
Import ListNotations.
Open Scope R_scope.

Lemma half_sqrt T : 0 < T -> exp (5/10 * ln T) = sqrt T.
Proof. intros H. replace (5/10) with (/2) by lra. rewrite <- (Rpower_sqrt T H). reflexivity. Qed.

(** * C124 *)
Definition ulT (c : ulInput) : R := let '(T, _, _, _, _) := c in T.
Definition ulY (c : ulInput) : Z -> R := let '(_, y, _, _, _) := c in y.
Definition ulRhoCp (c : ulInput) : R := let '(_, _, rho, cp, _) := c in rho * cp.

Lemma ulCell_fresh t c l : 0 < ulT c -> snd (ulCell t (fun _ => 0) (fun _ => 0) c) l =
  let k := mixKappa (kN t) (speciesKappa t (ulT c)) (moleFraction (kN t) (kMW t) (ulY c)) in
  if (l =? 0)%Z then mixMu (kN t) (kMW t) (fun n => quartic (kMuPoly t n) (ln (ulT c)) * sqrt (ulT c)) (moleFraction (kN t) (kMW t) (ulY c)) else
  if (l =? 1)%Z then k else if ((2 <=? l) && (l <=? 2 + kN t - 1))%Z%bool then k / ulRhoCp c else snd c l.
Proof.
  destruct c as [[[[T y] rho] cp] qt]. cbn [ulT ulY ulRhoCp snd]. intros HT. unfold ulCell. cbn [snd]. cbv zeta. rewrite half_sqrt by exact HT.
  assert (I : forall n, (0 <= n < kN t)%Z -> ((0 <=? n) && (n <? kN t))%Z%bool = true) by (intros n Hn; apply andb_true_iff; split; [apply Z.leb_le|apply Z.ltb_lt]; lia).
  match goal with |- context [mixKappa (kN t) ?f ?X] => assert (EK : mixKappa (kN t) f X = mixKappa (kN t) (speciesKappa t T) (moleFraction (kN t) (kMW t) y)) end.
  { apply mixKappa_ext; intros n Hn; [rewrite (I n Hn), polyInto_quartic; unfold speciesKappa; ring|apply trX_mole]. }
  rewrite EK. destruct (l =? 0)%Z; [|reflexivity]. apply mixMu_ext; intros n Hn; [rewrite (I n Hn), polyInto_quartic; ring|apply trX_mole].
Qed.

(** In the NSCOMPILE build, and in the default build for the first cell of a thread: conductivity by the mixing rule from the species
    polynomials at the cell's own state, and one diffusivity, that of heat, for every species *)
Theorem C124_nscompile_conductivity : forall t cs i c, nth_error cs i = Some c -> 0 < ulT c ->
  exists o, nth_error (kineticTheoryULNS t cs) i = Some o /\
    o 1%Z = mixKappa (kN t) (speciesKappa t (ulT c)) (moleFraction (kN t) (kMW t) (ulY c)) /\
    forall n, (0 <= n < kN t)%Z -> ulRhoCp c <> 0 -> ulRhoCp c * o (2 + n)%Z = o 1%Z.
Proof.
  intros t cs i c Hc HT. unfold kineticTheoryULNS. rewrite nth_error_map, Hc. cbn [option_map]. eexists. split; [reflexivity|]. split.
  - rewrite ulCell_fresh by exact HT. reflexivity.
  - intros n Hn Hr. rewrite !ulCell_fresh by exact HT. cbv zeta. destruct (Z.eqb_spec (2 + n) 0); [lia|]. destruct (Z.eqb_spec (2 + n) 1); [lia|].
    replace ((2 <=? 2 + n) && (2 + n <=? 2 + kN t - 1))%Z%bool with true by (symmetry; rewrite andb_true_iff, !Z.leb_le; lia). cbn [Z.eqb Pos.eqb]. field. exact Hr.
Qed.

(** the species tables are those of C110/C111: viscosity and conductivity polynomials positive at T *)
Definition positiveTables (t : ktab) (T : R) : Prop := positiveOn (kN t) (kMW t) /\ forall n, (0 <= n < kN t)%Z -> 0 < quartic (kMuPoly t n) (ln T) /\ 0 < quartic (kKappaPoly t n) (ln T).
Theorem C124_nscompile_positive : forall t cs i c l, nth_error cs i = Some c -> 0 < ulT c -> (1 <= kN t)%Z -> positiveTables t (ulT c) -> validFracs (kN t) (ulY c) -> 0 < ulRhoCp c -> (0 <= l <= kN t + 1)%Z ->
  exists o, nth_error (kineticTheoryULNS t cs) i = Some o /\ 0 < o l.
Proof.
  intros t cs i c l Hc HT H1 [Hm Hp] Hv Hr Hl. unfold kineticTheoryULNS. rewrite nth_error_map, Hc. cbn [option_map]. eexists. split; [reflexivity|].
  rewrite ulCell_fresh by exact HT. cbv zeta. pose proof (mole_weights _ _ _ H1 Hm Hv) as W. assert (0 < sqrt (ulT c)) by (apply sqrt_lt_R0; exact HT).
  assert (K : 0 < mixKappa (kN t) (speciesKappa t (ulT c)) (moleFraction (kN t) (kMW t) (ulY c))).
  { apply mixKappa_pos; [|exact W]. intros n Hn. unfold speciesKappa. apply Rmult_lt_0_compat; [apply Hp, Hn|assumption]. }
  destruct (Z.eqb_spec l 0).
  - apply mixMu_pos; [exact Hm| |exact W]. intros n Hn. apply Rmult_lt_0_compat; [apply Hp, Hn|assumption].
  - destruct (Z.eqb_spec l 1); [exact K|]. replace ((2 <=? l) && (l <=? 2 + kN t - 1))%Z%bool with true by (symmetry; rewrite andb_true_iff, !Z.leb_le; lia). now apply Rdiv_lt_0_compat.
Qed.

(** The viscosity is not the species viscosity of the table: both kinetic-theory kernels read the same fit, of sqrt(mu / sqrt T), and this
    one forgets to square it.  For a pure gas it returns the geometric mean of the viscosity and sqrt T. *)
Theorem C124_viscosity_refuted : forall t cs i c s, nth_error cs i = Some c -> 0 < ulT c -> (0 <= s < kN t)%Z -> positiveTables t (ulT c) -> pureGas (kN t) s (ulY c) ->
  exists o, nth_error (kineticTheoryULNS t cs) i = Some o /\ o 0%Z * o 0%Z = speciesMu t (ulT c) s * sqrt (ulT c) /\ (speciesMu t (ulT c) s < sqrt (ulT c) -> speciesMu t (ulT c) s < o 0%Z).
Proof.
  intros t cs i c s Hc HT Hs [Hm Hp] Hpure. unfold kineticTheoryULNS. rewrite nth_error_map, Hc. cbn [option_map]. eexists. split; [reflexivity|].
  rewrite ulCell_fresh by exact HT. cbv zeta. cbn [Z.eqb]. assert (Hq : 0 < sqrt (ulT c)) by (apply sqrt_lt_R0; exact HT). destruct (Hp s Hs) as [Hmu _].
  rewrite (mixMu_pure _ _ _ _ s); [|exact Hs|apply Hm, Hs|apply Rmult_lt_0_compat; assumption|intros n Hn; apply mole_pure; [exact Hs|apply Hm, Hs|exact Hpure|exact Hn]].
  set (P := quartic (kMuPoly t s) (ln (ulT c))) in *. assert (E : speciesMu t (ulT c) s = P * P * sqrt (ulT c)).
  { unfold speciesMu. fold P. replace ((P * sqrt (sqrt (ulT c))) ^ 2) with (P * P * (sqrt (sqrt (ulT c)) * sqrt (sqrt (ulT c)))) by ring. rewrite sqrt_sqrt by lra. reflexivity. }
  rewrite E. split; [ring|]. intros Hlt. assert (P * P < 1). { apply Rmult_lt_reg_r with (sqrt (ulT c)); lra. } assert (P < 1) by nra. apply Rmult_lt_compat_r; [exact Hq|]. nra.
Qed.
(** air-like numbers: at T = 1 a table with viscosity 1/10000 gives 1/100 *)
Example C124_viscosity_example : exists t c o, nth_error (kineticTheoryULNS t [c]) 0 = Some o /\ pureGas (kN t) 0 (ulY c) /\ speciesMu t (ulT c) 0 = 1/10000 /\ o 0%Z = 1/100.
Proof.
  set (t := mkKt 1 (fun _ => 28) (fun _ p => if (p =? 0)%Z then 1/100 else 0) (fun _ p => if (p =? 0)%Z then 1 else 0) (fun _ _ => 0)).
  set (c := (1, (fun _ => 0), 1, 1, (fun _ => 0)) : ulInput).
  assert (HT : 0 < ulT c) by (cbn; lra). assert (Q : forall n, quartic (kMuPoly t n) (ln (ulT c)) = 1/100) by (intros n; unfold quartic; cbn [kMuPoly t Z.eqb]; ring).
  assert (Hpu : pureGas (kN t) 0 (ulY c)). { intros n Hn. cbn [kN t] in Hn. assert (n = 0)%Z by lia. subst n. unfold withLast, sumZ. cbn. lra. }
  destruct (C124_viscosity_refuted t [c] 0 c 0 eq_refl HT ltac:(cbn; lia)) as (o & Ho & Hsq & _).
  - split; [intros n _; cbn; lra|]. intros n _. rewrite Q. split; [lra|]. unfold quartic. cbn [kKappaPoly t Z.eqb]. lra.
  - exact Hpu.
  - exists t, c, o. split; [exact Ho|]. split; [exact Hpu|].
    assert (Emu : speciesMu t (ulT c) 0 = 1/10000). { unfold speciesMu. rewrite Q. cbn [ulT c]. rewrite !sqrt_1. lra. }
    split; [exact Emu|]. rewrite Emu in Hsq. cbn [ulT c] in Hsq. rewrite sqrt_1 in Hsq.
    unfold kineticTheoryULNS in Ho. cbn [map nth_error] in Ho. apply (f_equal (fun x => match x with Some o => o | None => fun _ => 0 end)) in Ho. cbv beta iota in Ho. subst o. rewrite ulCell_fresh in Hsq by exact HT. rewrite ulCell_fresh by exact HT. cbv zeta in Hsq |- *. cbn [Z.eqb] in Hsq |- *.
    assert (HP : 0 < mixMu (kN t) (kMW t) (fun n => quartic (kMuPoly t n) (ln (ulT c)) * sqrt (ulT c)) (moleFraction (kN t) (kMW t) (ulY c))).
    { apply mixMu_pos; [intros n _; cbn; lra| |]. { intros n _. rewrite Q. cbn [ulT c]. rewrite sqrt_1. lra. } apply mole_weights; [cbn; lia|intros n _; cbn; lra|].
      split; [intros; cbn; lra|]. unfold sumZ. cbn. lra. }
    set (m := mixMu _ _ _ _) in *. nra.
Qed.

(** The default build: the scratch arrays keep the values of the thread's previous cell, so two cells in the same state get different
    conductivities *)
Theorem C124_default_build_refuted : exists t c o1 o2, kineticTheoryUL t [c; c] = [o1; o2] /\ 0 < ulT c /\ positiveTables t (ulT c) /\ validFracs (kN t) (ulY c) /\ o1 1%Z <> o2 1%Z /\ o1 0%Z <> o2 0%Z.
Proof.
  set (t := mkKt 1 (fun _ => 28) (fun _ p => if (p =? 0)%Z then 1 else 0) (fun _ p => if (p =? 0)%Z then 1 else 0) (fun _ _ => 0)).
  set (c := (1, (fun _ => 0), 1, 1, (fun _ => 0)) : ulInput).
  eexists t, c, _, _. split; [reflexivity|]. split; [cbn; lra|]. split; [split; [intros n _; cbn; lra|intros n _; unfold quartic; cbn [kMuPoly kKappaPoly t Z.eqb]; split; lra]|].
  split; [split; [intros; cbn; lra|unfold sumZ; cbn; lra]|].
  assert (A : forall old, polyInto old (fun p : Z => if (p =? 0)%Z then 1 else 0) (ln 1) * exp (5/10 * ln 1) = old + 1).
  { intros old. rewrite polyInto_quartic. unfold quartic. cbn [Z.eqb]. rewrite !ln_1. replace (exp (5/10 * 0)) with 1 by (rewrite Rmult_0_r, exp_0; reflexivity). ring. }
  assert (X : trX 1 (fun _ => 28) (trY 1 (fun _ => 0)) 0 = 1). { rewrite (trX_mole 1 (fun _ => 28) (fun _ => 0) 0). apply (mole_pure 1 (fun _ => 28) (fun _ => 0) 0); [lia|lra|intros n Hn; assert (n = 0)%Z by lia; subst n; unfold withLast, sumZ; cbn; lra|lia]. }
  assert (MK : forall k x, x 0%Z = 1 -> k 0%Z <> 0 -> mixKappa 1 k x = k 0%Z) by (intros k x Hx Hk; apply mixKappa_pure; [lia|exact Hk|intros n Hn; assert (n = 0)%Z by lia; subst n; exact Hx]).
  assert (MM : forall k x, x 0%Z = 1 -> 0 < k 0%Z -> mixMu 1 (fun _ => 28) k x = k 0%Z) by (intros k x Hx Hk; apply (mixMu_pure _ _ _ _ 0); [lia|lra|exact Hk|intros n Hn; assert (n = 0)%Z by lia; subst n; exact Hx]).
  cbn [fst snd Z.eqb Z.leb Z.ltb Z.compare andb Pos.eqb kN kMW kMuPoly kKappaPoly t].
  split; (rewrite !MK || rewrite !MM); cbn [Z.leb Z.ltb Z.compare andb]; rewrite ?A; try exact X; try lra.
Qed.

(** * C125 *)
(** the numbers of the paper for a species, in its units *)
Definition spV (s : chSpecies) : R := cVc s * cMW s * 1000.
Definition spMr (s : chSpecies) : R := reducedDipole (cDip s / (3.33564 / 10 ^ 30)) (spV s) (cTc s).
Definition spE (s : chSpecies) (i : Z) : R := chungA s (i - 1).
Definition spB (s : chSpecies) (i : Z) : R := chungB s (i - 1).
Definition spMolar (s : chSpecies) (rho : R) : R := rho / cMW s / 1000.
Definition realSpecies (s : chSpecies) : Prop := 0 < cMW s /\ 0 < cTc s /\ 0 < cVc s.

Lemma mr_eq s : redDipole s = spMr s.
Proof. unfold redDipole, spMr, reducedDipole, spV. cbv zeta. replace 131.3 with (1313/10) by lra. replace (333564 / 10 ^ 35) with (3.33564 / 10 ^ 30); [reflexivity|]. simpl pow. lra. Qed.
Lemma omega_eq Ts : chOmega Ts = collision Ts.
Proof.
  unfold chOmega, collision. replace (-0.14874) with (- (14874/100000)) by lra. replace (-0.77320) with (- (77320/100000)) by lra.
  replace (-2.43787) with (- (243787/100000)) by lra. lra.
Qed.
Lemma omega_pos Ts : 0 < collision Ts.
Proof.
  rewrite <- omega_eq. unfold chOmega. pose proof (exp_pos (- (14874/100000) * ln Ts)). pose proof (exp_pos (- (77320/100000) * Ts)). pose proof (exp_pos (- (243787/100000) * Ts)).
  unfold Rpower. lra.
Qed.
Lemma fc_eq s : chFc s = shape (cAc s) (spMr s).
Proof. unfold chFc, shape. rewrite mr_eq. lra. Qed.
Lemma y_eq s rho : chY s rho = reducedDensity (spV s) (spMolar s rho).
Proof. unfold chY, reducedDensity, spMolar, chVc, spV. lra. Qed.
Lemma g1_eq y : chG1 y = g1 y.
Proof. unfold chG1, g1. replace 0.5 with (5/10) by lra. reflexivity. Qed.
Lemma g2_eq A y : chG2 A y = g2 (fun i => A (i - 1)%Z) y.
Proof. unfold chG2, g2. rewrite g1_eq. cbn [Z.sub Z.add Z.opp Z.pos_sub Pos.pred_double]. unfold Rdiv. f_equal. f_equal. f_equal. ring. Qed.
Lemma ts_eq s T : chTstar s T = 1.2593 * (T / cTc s).
Proof. unfold chTstar, chTr. lra. Qed.

(** conductivity of a species in the kernel = the published correlation *)
Lemma kappa_eq s Ru T rho gamma cp : realSpecies s -> 0 < Ru -> gamma <> 0 ->
  chKappa s Ru T rho gamma cp = conductivity (cMW s) (cTc s) (spV s) (cAc s) (spMr s) (spB s) T (spMolar s rho) (cp / gamma * cMW s / Ru).
Proof.
  intros (Hm & Ht & Hv) HR Hg. unfold chKappa, conductivity, dilute, psi. cbv zeta. rewrite !ts_eq, !omega_eq, !fc_eq, !y_eq, !g2_eq. unfold spB, chTr. fold (spV s).
  change (fun i => chungB s (i - 1)%Z) with (spB s). replace (6 - 1)%Z with 5%Z by reflexivity. replace (7 - 1)%Z with 6%Z by reflexivity.
  replace (cp * (1 / 1000) * cMW s / gamma / (Ru / 1000) - 15/10) with (cp / gamma * cMW s / Ru - 1.5) by (replace 1.5 with (15/10) by lra; field; split; [exact Hg|lra]).
  replace (7862/10000) with 0.7862 by lra. replace (7109/10000) with 0.7109 by lra. replace (13168/10000) with 1.3168 by lra. replace (105/10) with 10.5 by lra.
  replace (215/1000) with 0.215 by lra. replace (28288/100000) with 0.28288 by lra. replace (1061/1000) with 1.061 by lra. replace (26665/100000) with 0.26665 by lra. replace (6366/10000) with 0.6366 by lra.
  unfold chVc. fold (spV s). set (P := 1 + _). set (G := g2 _ _). set (W := Rpower _ _). set (y := reducedDensity _ _).
  replace (40785 / 10 ^ 9) with (4.0785 / 10 ^ 5) by (simpl pow; lra). set (e := 4.0785 / 10 ^ 5 * _ / _ * _). replace (3039 / 10 ^ 7) with (3.039 / 10 ^ 4) by (simpl pow; lra). set (c := 3.039 / 10 ^ 4).
  replace (7452/1000) with 7.452 by lra. replace (41868/100) with 418.68 by lra. replace (1 / G) with (/ G) by (unfold Rdiv; ring). ring.
Qed.

Lemma coefE s i : (1 <= i <= 10)%Z -> spE s i = coefficient rowsE (cAc s) (spMr s) i.
Proof.
  intros Hi. unfold spE, chungA, coefficient. rewrite mr_eq. set (r := spMr s ^ 4).
  assert (i = 1 \/ i = 2 \/ i = 3 \/ i = 4 \/ i = 5 \/ i = 6 \/ i = 7 \/ i = 8 \/ i = 9 \/ i = 10)%Z as E by lia.
  destruct E as [-> | [-> | [-> | [-> | [-> | [-> | [-> | [-> | [-> | ->]]]]]]]]]; unfold viscConsts, rowsE; simpl Z.sub; simpl Z.to_nat; cbv beta iota delta [nth Pos.to_nat Pos.iter_op Nat.add]; lra.
Qed.
Lemma coefB s i : (1 <= i <= 7)%Z -> spB s i = coefficient rowsB (cAc s) (spMr s) i.
Proof.
  intros Hi. unfold spB, chungB, coefficient. rewrite mr_eq. set (r := spMr s ^ 4).
  assert (i = 1 \/ i = 2 \/ i = 3 \/ i = 4 \/ i = 5 \/ i = 6 \/ i = 7)%Z as E by lia.
  destruct E as [-> | [-> | [-> | [-> | [-> | [-> | ->]]]]]]; unfold conductConsts, rowsB; simpl Z.sub; simpl Z.to_nat; cbv beta iota delta [nth Pos.to_nat Pos.iter_op Nat.add]; lra.
Qed.

(** the paper's correlation evaluated with the paper's constants *)
Definition chungViscosity (s : chSpecies) (T rho : R) : R :=
  viscosity (cMW s) (cTc s) (spV s) (cAc s) (spMr s) (coefficient rowsE (cAc s) (spMr s)) T (spMolar s rho).
Definition chungConductivity (s : chSpecies) (T rho cv : R) : R :=
  conductivity (cMW s) (cTc s) (spV s) (cAc s) (spMr s) (coefficient rowsB (cAc s) (spMr s)) T (spMolar s rho) cv.
Lemma g2_ext c c' y : (forall i, (1 <= i <= 5)%Z -> c i = c' i) -> g2 c y = g2 c' y.
Proof. intros H. unfold g2. rewrite (H 1%Z), (H 2%Z), (H 3%Z), (H 4%Z), (H 5%Z) by lia. reflexivity. Qed.
Lemma kappa_published s Ru T rho gamma cp : realSpecies s -> 0 < Ru -> gamma <> 0 -> chKappa s Ru T rho gamma cp = chungConductivity s T rho (cp / gamma * cMW s / Ru).
Proof.
  intros Hs HR Hg. rewrite kappa_eq by assumption. unfold chungConductivity, conductivity. cbv zeta. rewrite (g2_ext (spB s) (coefficient rowsB (cAc s) (spMr s))) by (intros; apply coefB; lia).
  rewrite !coefB by lia. reflexivity.
Qed.
(** what the kernel computes instead *)
Definition excess (s : chSpecies) (T rho : R) : R :=
  36.344 * sqrt (cMW s * cTc s) / Rpower (spV s) (2/3) / 10 ^ 7 * (sqrt (1.2593 * (T / cTc s)) / collision (1.2593 * (T / cTc s))) *
  (coefficient rowsE (cAc s) (spMr s) 6 * reducedDensity (spV s) (spMolar s rho) * (1 - shape (cAc s) (spMr s))).
Lemma mu_excess s T rho : chMu s T rho = chungViscosity s T rho + excess s T rho.
Proof.
  unfold chMu, chungViscosity, viscosity, etaStar, excess. cbv zeta. rewrite !ts_eq, !omega_eq, !fc_eq, !y_eq, !g2_eq. unfold chVc. fold (spV s). change (fun i => chungA s (i - 1)%Z) with (spE s).
  change (chungA s 5) with (spE s 6). change (chungA s 6) with (spE s 7). change (chungA s 7) with (spE s 8). change (chungA s 8) with (spE s 9). change (chungA s 9) with (spE s 10).
  rewrite (g2_ext (spE s) (coefficient rowsE (cAc s) (spMr s))) by (intros; apply coefE; lia). rewrite !coefE by lia.
  replace (36344/1000) with 36.344 by lra. set (y := reducedDensity _ _). set (E := coefficient _ _ _). set (G := g2 _ _). set (Ts := 1.2593 * _). set (F := shape _ _). unfold Rdiv. ring.
Qed.
Lemma chFrac_valid nsp y n : (0 <= withLast nsp y (nsp - 1)) -> chFrac nsp y n = trY nsp y n.
Proof.
  intros H. rewrite <- trY_withLast in H. unfold chFrac, trY in *. rewrite Z.eqb_refl in H. destruct (n =? nsp - 1)%Z; [|reflexivity]. apply Rmax_right, H.
Qed.

Lemma chX nsp mw y n : 0 <= withLast nsp y (nsp - 1) -> trX nsp mw (chFrac nsp y) n = moleFraction nsp mw y n.
Proof.
  intros H. rewrite <- trX_mole. unfold trX. rewrite chFrac_valid by exact H. f_equal. unfold trMass. rewrite !accum_sum. apply sumZ_ext. intros i _. now rewrite chFrac_valid by exact H.
Qed.
Lemma pure_last nsp s y : (1 <= nsp)%Z -> pureGas nsp s y -> 0 <= withLast nsp y (nsp - 1).
Proof. intros H1 Hp. rewrite Hp by lia. destruct (_ =? _)%Z; lra. Qed.
Lemma valid_last nsp y : validFracs nsp y -> 0 <= withLast nsp y (nsp - 1).
Proof. intros [_ H]. unfold withLast. rewrite Z.eqb_refl. lra. Qed.

(** what the kernel leaves in a cell holding one species *)
Theorem C125_pure_conductivity : forall nsp sp Ru T rho gamma cp y qt s, (0 <= s < nsp)%Z -> pureGas nsp s y -> realSpecies (sp s) -> 0 < Ru -> gamma <> 0 ->
  0 < chungConductivity (sp s) T rho (cp / gamma * cMW (sp s) / Ru) ->
  chungCell nsp sp Ru T rho gamma cp y qt 1 = chungConductivity (sp s) T rho (cp / gamma * cMW (sp s) / Ru).
Proof.
  intros nsp sp Ru T rho gamma cp y qt s Hs Hp Hr HR Hg Hk. unfold chungCell. cbn [Z.eqb]. cbn [Pos.eqb].
  assert (Hm : 0 < cMW (sp s)) by apply Hr. rewrite <- kappa_published in * by assumption.
  rewrite (mixKappa_pure nsp _ _ s); [reflexivity|exact Hs|lra|]. intros n Hn. rewrite chX by (apply (pure_last nsp s); [lia|exact Hp]). now apply mole_pure.
Qed.

(** ... the viscosity is not that of the correlation: the shape factor multiplies only the first term of the bracket.  Whatever the state,
    the kernel's value differs from the published one unless the shape factor is 1 or the coefficient vanishes *)
Theorem C125_viscosity_refuted : forall nsp sp Ru T rho gamma cp y qt s, (0 <= s < nsp)%Z -> pureGas nsp s y -> realSpecies (sp s) -> 0 < T -> 0 < rho ->
  0 < chungViscosity (sp s) T rho + excess (sp s) T rho ->
  shape (cAc (sp s)) (spMr (sp s)) <> 1 -> coefficient rowsE (cAc (sp s)) (spMr (sp s)) 6 <> 0 ->
  chungCell nsp sp Ru T rho gamma cp y qt 0 = chungViscosity (sp s) T rho + excess (sp s) T rho /\
  chungCell nsp sp Ru T rho gamma cp y qt 0 <> chungViscosity (sp s) T rho.
Proof.
  intros nsp sp Ru T rho gamma cp y qt s Hs Hp Hr HT Hrho Hk HF HE. destruct Hr as (Hm & Htc & Hv).
  assert (E : chungCell nsp sp Ru T rho gamma cp y qt 0 = chungViscosity (sp s) T rho + excess (sp s) T rho).
  { unfold chungCell. cbn [Z.eqb]. rewrite <- mu_excess in *. rewrite (mixMu_pure nsp _ _ _ s); [reflexivity|exact Hs|exact Hm|exact Hk|].
    intros n Hn. rewrite chX by (apply (pure_last nsp s); [lia|exact Hp]). now apply mole_pure. }
  split; [exact E|]. rewrite E. enough (excess (sp s) T rho <> 0) by lra. unfold excess.
  set (f := sp s) in *. set (Ts := 1.2593 * (T / cTc f)). assert (0 < Ts) by (apply Rmult_lt_0_compat; [lra|apply Rdiv_lt_0_compat; assumption]).
  assert (HV : 0 < spV f) by (unfold spV; repeat apply Rmult_lt_0_compat; lra).
  assert (P1 : 0 < 36.344 * sqrt (cMW f * cTc f) / Rpower (spV f) (2/3) / 10 ^ 7).
  { apply Rdiv_lt_0_compat; [|apply pow_lt; lra]. apply Rdiv_lt_0_compat; [|unfold Rpower; apply exp_pos]. apply Rmult_lt_0_compat; [lra|]. apply sqrt_lt_R0, Rmult_lt_0_compat; assumption. }
  assert (P2 : 0 < sqrt Ts / collision Ts) by (apply Rdiv_lt_0_compat; [now apply sqrt_lt_R0|apply omega_pos]).
  assert (P3 : 0 < reducedDensity (spV f) (spMolar f rho)) by (unfold reducedDensity, spMolar; apply Rdiv_lt_0_compat; [|lra]; apply Rmult_lt_0_compat; [|exact HV]; apply Rdiv_lt_0_compat; [|lra]; now apply Rdiv_lt_0_compat).
  apply Rmult_integral_contrapositive_currified; [apply Rmult_integral_contrapositive_currified; lra|].
  apply Rmult_integral_contrapositive_currified; [apply Rmult_integral_contrapositive_currified; [exact HE|lra]|lra].
Qed.
(** it is that of the correlation when the shape factor is 1 (spherical, non-polar), and approaches it as the density goes to zero *)
Theorem C125_viscosity_partial : forall nsp sp Ru T rho gamma cp y qt s, (0 <= s < nsp)%Z -> pureGas nsp s y -> realSpecies (sp s) ->
  0 < chungViscosity (sp s) T rho -> shape (cAc (sp s)) (spMr (sp s)) = 1 -> chungCell nsp sp Ru T rho gamma cp y qt 0 = chungViscosity (sp s) T rho.
Proof.
  intros nsp sp Ru T rho gamma cp y qt s Hs Hp Hr Hk HF. assert (Z0 : excess (sp s) T rho = 0) by (unfold excess; rewrite HF; ring).
  assert (E : chMu (sp s) T rho = chungViscosity (sp s) T rho) by (rewrite mu_excess, Z0; ring).
  unfold chungCell. cbn [Z.eqb]. rewrite (mixMu_pure nsp _ _ _ s); [exact E|exact Hs|apply Hr|rewrite E; exact Hk|].
  intros n Hn. rewrite chX by (apply (pure_last nsp s); [lia|exact Hp]). apply mole_pure; [exact Hs|apply Hr|exact Hp|exact Hn].
Qed.
Theorem C125_viscosity_dilute_partial : forall s T eps, realSpecies s -> 0 < eps -> exists delta, 0 < delta /\
  forall nsp sp Ru rho gamma cp y qt i, sp i = s -> (0 <= i < nsp)%Z -> pureGas nsp i y -> 0 < rho < delta -> 0 < chMu s T rho ->
    Rabs (chungCell nsp sp Ru T rho gamma cp y qt 0 - chungViscosity s T rho) < eps.
Proof.
  intros s T eps Hr He.
  set (K := excess s T 1). exists (eps / (Rabs K + 1)). pose proof (Rabs_pos K). split; [apply Rdiv_lt_0_compat; lra|].
  intros nsp sp Ru rho gamma cp y qt i Ei Hi Hp Hrho Hmu. subst s.
  unfold chungCell. cbn [Z.eqb]. rewrite (mixMu_pure nsp _ _ _ i); [|exact Hi|apply Hr|exact Hmu|intros n Hn; rewrite chX by (apply (pure_last nsp i); [lia|exact Hp]); apply mole_pure; [exact Hi|apply Hr|exact Hp|exact Hn]].
  rewrite mu_excess. replace (chungViscosity (sp i) T rho + excess (sp i) T rho - chungViscosity (sp i) T rho) with (rho * K).
  2: { unfold K, excess, reducedDensity, spMolar, Rdiv. ring. }
  rewrite Rabs_mult, (Rabs_right rho) by lra. assert (rho * (Rabs K + 1) < eps). { replace eps with (eps / (Rabs K + 1) * (Rabs K + 1)) by (field; lra). apply Rmult_lt_compat_r; lra. } nra.
Qed.

(** mixtures: one diffusivity, that of heat, for all species; conductivity between the extreme species values; nothing negative *)
Theorem C125_unity_lewis : forall nsp sp Ru T rho gamma cp y qt n, (0 <= n < nsp)%Z -> rho * cp <> 0 ->
  rho * cp * chungCell nsp sp Ru T rho gamma cp y qt (2 + n) = chungCell nsp sp Ru T rho gamma cp y qt 1.
Proof.
  intros nsp sp Ru T rho gamma cp y qt n Hn Hr. unfold chungCell. cbv zeta. destruct (Z.eqb_spec (2 + n) 0); [lia|]. destruct (Z.eqb_spec (2 + n) 1); [lia|].
  replace ((2 <=? 2 + n) && (2 + n <=? 2 + nsp - 1))%Z%bool with true by (symmetry; rewrite andb_true_iff, !Z.leb_le; lia). cbn [Z.eqb Pos.eqb]. field. split; intros E; apply Hr; rewrite E; ring.
Qed.
Theorem C125_mixture : forall nsp sp Ru T rho gamma cp y qt lo hi, (1 <= nsp)%Z -> validFracs nsp y -> (forall n, (0 <= n < nsp)%Z -> realSpecies (sp n)) -> 0 < Ru -> gamma <> 0 -> 0 < lo ->
  (forall n, (0 <= n < nsp)%Z -> lo <= chungConductivity (sp n) T rho (cp / gamma * cMW (sp n) / Ru) <= hi) ->
  (forall n, (0 <= n < nsp)%Z -> 0 < chungViscosity (sp n) T rho + excess (sp n) T rho) ->
  lo <= chungCell nsp sp Ru T rho gamma cp y qt 1 <= hi /\ 0 < chungCell nsp sp Ru T rho gamma cp y qt 0.
Proof.
  intros nsp sp Ru T rho gamma cp y qt lo hi H1 Hv Hs HR Hg Hlo Hk Hmu. pose proof (valid_last _ _ Hv) as Hl.
  assert (Hm : positiveOn nsp (fun n => cMW (sp n))) by (intros n Hn; apply (Hs n Hn)). pose proof (mole_weights _ _ _ H1 Hm Hv) as W.
  split.
  - unfold chungCell. cbn [Z.eqb]. cbn [Pos.eqb]. rewrite (mixKappa_ext nsp _ (fun n => chKappa (sp n) Ru T rho gamma cp) _ (moleFraction nsp (fun n => cMW (sp n)) y)) by (intros; (reflexivity || now apply chX)).
    apply mixKappa_between; [exact W|exact Hlo|]. intros n Hn. rewrite kappa_published by (auto; now apply Hs). now apply Hk.
  - unfold chungCell. cbn [Z.eqb]. rewrite (mixMu_ext nsp _ _ (fun n => chMu (sp n) T rho) _ (moleFraction nsp (fun n => cMW (sp n)) y)) by (intros; (reflexivity || now apply chX)).
    apply mixMu_pos; [exact Hm| |exact W]. intros n Hn. rewrite mu_excess. now apply Hmu.
Qed.
(** a gas with acentric factor 1/10 at its critical temperature and a twentieth of its critical density *)
Definition gas0 : chSpecies := mkCh 1 1 (6/1000) (1/10) 0.
Lemma gas0_mr : spMr gas0 = 0.
Proof. unfold spMr, reducedDipole. cbn [gas0 cDip cTc]. unfold Rdiv. ring. Qed.
Lemma gas0_real : realSpecies gas0. Proof. unfold realSpecies. cbn [gas0 cMW cTc cVc]. lra. Qed.
Lemma gas0_shape : shape (cAc gas0) (spMr gas0) = 1 - 0.02756.
Proof. unfold shape. rewrite gas0_mr. cbn [gas0 cAc]. simpl pow. lra. Qed.
Lemma gas0_y : reducedDensity (spV gas0) (spMolar gas0 10) = 1/100.
Proof. unfold reducedDensity, spV, spMolar. cbn [gas0 cVc cMW]. lra. Qed.
Ltac rowv := unfold coefficient; rewrite ?gas0_mr; cbn [gas0 cAc]; unfold rowsE, rowsB; simpl Z.sub; simpl Z.to_nat; cbv beta iota delta [nth Pos.to_nat Pos.iter_op Nat.add]; lra.
Lemma exp_up x : 0 < x < 1 -> exp x < / (1 - x).
Proof.
  intros H. assert (1 - x < exp (- x)) by (pose proof (exp_ineq1 (- x) ltac:(lra)); lra). rewrite <- (Rinv_inv (exp x)), <- exp_Ropp. apply Rinv_lt_contravar; [|assumption]. apply Rmult_lt_0_compat; [lra|apply exp_pos].
Qed.
Lemma g2_bounds c y : 0 < y -> y = 1/100 -> 0 < c 1%Z -> 0 < c 4%Z -> 0 < c 5%Z < 30 -> -1 < c 2%Z < 1 -> 5 < c 3%Z < 40 -> 20 < c 1%Z * c 4%Z -> 0 < g2 c y < 2.
Proof.
  intros _ -> H1 H4 H5 H2 H3 H14. unfold g2, g1. set (G := (1 - 0.5 * (1/100)) / (1 - 1/100) ^ 3). assert (HG : 1 < G < 1.03) by (unfold G; simpl pow; lra).
  pose proof (exp_up (c 5%Z * (1/100)) ltac:(lra)) as U. pose proof (exp_pos (c 5%Z * (1/100))) as U0. assert (UB : / (1 - c 5%Z * (1/100)) < 1.5).
  { replace 1.5 with (/ (2/3)) by lra. apply Rinv_lt_contravar; lra. }
  set (e := exp (c 5%Z * (1/100))) in *. assert (0 < e < 1.5) by lra. clear U U0 UB.
  assert (L : 0 < (1 - exp (- c 4%Z * (1/100))) / (1/100) < c 4%Z).
  { pose proof (exp_ineq1 (- c 4%Z * (1/100)) ltac:(lra)). pose proof (exp_increasing (- c 4%Z * (1/100)) 0 ltac:(lra)) as X0. rewrite exp_0 in X0. replace ((1 - exp (- c 4%Z * (1/100))) / (1/100)) with (100 * (1 - exp (- c 4%Z * (1/100)))) by field. lra. }
  set (h := (1 - exp (- c 4%Z * (1/100))) / (1/100)) in *. clearbody h e G.
  assert (A : 0 < c 1%Z * h < c 1%Z * c 4%Z). { split; [apply Rmult_lt_0_compat; lra|apply Rmult_lt_compat_l; lra]. }
  assert (B : 0 < G * e < 1.6) by nra.
  assert (C : -1.6 < c 2%Z * G * e < 1.6). { rewrite Rmult_assoc. set (q := G * e) in *. nra. }
  assert (Dn : 0 < c 1%Z * c 4%Z + c 2%Z + c 3%Z) by lra. assert (E3 : 5 < c 3%Z * G < 1.03 * c 3%Z) by nra.
  split; [apply Rdiv_lt_0_compat; lra|]. apply Rmult_lt_reg_r with (c 1%Z * c 4%Z + c 2%Z + c 3%Z); [exact Dn|]. unfold Rdiv at 1. rewrite Rmult_assoc, Rinv_l by lra. lra.
Qed.
Lemma gas0_viscosity : 0 < chungViscosity gas0 1 10 + excess gas0 1 10.
Proof.
  unfold chungViscosity, viscosity, etaStar, excess. cbv zeta. rewrite gas0_y, gas0_shape. set (c := coefficient rowsE (cAc gas0) (spMr gas0)).
  assert (c1 : c 1%Z = 6.324 + 5.0412) by (unfold c; rowv). assert (c2 : c 2%Z = 0.001210 - 0.0001154) by (unfold c; rowv). assert (c3 : c 3%Z = 5.283 + 25.4209) by (unfold c; rowv).
  assert (c4 : c 4%Z = 6.623 + 3.8096) by (unfold c; rowv). assert (c5 : c 5%Z = 19.745 + 0.763) by (unfold c; rowv). assert (c6 : c 6%Z = -1.9 - 1.2537) by (unfold c; rowv). assert (c7 : c 7%Z = 24.275 + 0.345) by (unfold c; rowv).
  pose proof (g2_bounds c (1/100) ltac:(lra) eq_refl ltac:(lra) ltac:(lra) ltac:(lra) ltac:(lra) ltac:(lra) ltac:(rewrite c1, c4; lra)) as HG.
  set (G := g2 c (1/100)) in *. set (Ts := 1.2593 * (1 / cTc gas0)). assert (HTs : 0 < Ts) by (unfold Ts; cbn [gas0 cTc]; lra).
  set (W := Rpower (spV gas0) (2/3)). assert (HW : 0 < W) by (unfold W, Rpower; apply exp_pos). set (K := 36.344 * sqrt (cMW gas0 * cTc gas0)).
  assert (HK : 0 < K) by (unfold K; apply Rmult_lt_0_compat; [lra|]; apply sqrt_lt_R0; cbn [gas0 cMW cTc]; lra).
  set (Q := sqrt Ts / collision Ts). assert (HQ : 0 < Q) by (apply Rdiv_lt_0_compat; [now apply sqrt_lt_R0|apply omega_pos]).
  set (e := exp _). assert (He : 0 < e) by apply exp_pos. assert (HI : 1/2 < / G) by (replace (1/2) with (/ 2) by lra; apply Rinv_lt_contravar; nra).
  rewrite c6, c7. clearbody G Q e W K.
  match goal with |- 0 < ?X => replace X with (K / W / 10 ^ 7 * (Q * ((1 - 0.02756) * / G + (-1.9 - 1.2537) * (1/100)) + (24.275 + 0.345) * (1/100) ^ 2 * G * e)) by (unfold Rdiv; ring) end.
  apply Rmult_lt_0_compat; [apply Rdiv_lt_0_compat; [now apply Rdiv_lt_0_compat|apply pow_lt; lra]|]. apply Rplus_lt_0_compat.
  - apply Rmult_lt_0_compat; [exact HQ|]. nra.
  - repeat apply Rmult_lt_0_compat; try lra.
Qed.
Lemma gas0_conductivity : 0 < chungConductivity gas0 1 10 (5/2).
Proof.
  unfold chungConductivity, conductivity, dilute, psi. cbv zeta. rewrite gas0_y, gas0_shape. set (c := coefficient rowsB (cAc gas0) (spMr gas0)).
  assert (c1 : c 1%Z = 2.41657 + 0.074824) by (unfold c; rowv). assert (c2 : c 2%Z = -0.50924 - 0.150936) by (unfold c; rowv). assert (c3 : c 3%Z = 6.61069 + 0.562073) by (unfold c; rowv).
  assert (c4 : c 4%Z = 14.54250 - 0.891387) by (unfold c; rowv). assert (c5 : c 5%Z = 0.79274 + 0.082019) by (unfold c; rowv). assert (c6 : c 6%Z = -5.86340 + 1.280050) by (unfold c; rowv). assert (c7 : c 7%Z = 81.171 + 11.4158) by (unfold c; rowv).
  pose proof (g2_bounds c (1/100) ltac:(lra) eq_refl ltac:(lra) ltac:(lra) ltac:(lra) ltac:(lra) ltac:(lra) ltac:(rewrite c1, c4; lra)) as HG.
  set (G := g2 c (1/100)) in *. set (Ts := 1.2593 * (1 / cTc gas0)).
  set (W := Rpower (spV gas0) (2/3)). assert (HW : 0 < W) by (unfold W, Rpower; apply exp_pos). pose proof (omega_pos Ts) as HO. set (O := collision Ts) in *.
  assert (HS : 0 < sqrt (cMW gas0 * 1)) by (apply sqrt_lt_R0; cbn [gas0 cMW]; lra). set (S := sqrt (cMW gas0 * 1)) in *.
  assert (HI : 1/2 < / G) by (replace (1/2) with (/ 2) by lra; apply Rinv_lt_contravar; nra). assert (HS2 : 0 < sqrt (cTc gas0 / cMW gas0)) by (apply sqrt_lt_R0; cbn [gas0 cMW cTc]; lra).
  assert (HS3 : 0 < sqrt (1 / cTc gas0)) by (apply sqrt_lt_R0; cbn [gas0 cTc]; lra). set (S2 := sqrt (cTc gas0 / cMW gas0)) in *. set (S3 := sqrt (1 / cTc gas0)) in *.
  cbn [gas0 cMW cTc cAc]. rewrite c6, c7.
  set (P := 1 + _). assert (HP : 0 < P).
  { unfold P. simpl pow. lra. }
  clearbody G O W S S2 S3 P. apply Rmult_lt_0_compat; [lra|]. apply Rplus_lt_0_compat.
  - apply Rmult_lt_0_compat; [|lra]. apply Rmult_lt_0_compat; [|exact HP]. apply Rdiv_lt_0_compat; [|lra]. apply Rmult_lt_0_compat; [lra|]. apply Rmult_lt_0_compat; [|lra].
    apply Rdiv_lt_0_compat; [|now apply Rmult_lt_0_compat]. apply Rmult_lt_0_compat; [simpl pow; lra|exact HS].
  - assert (0 < 3.039 / 10 ^ 4) by (simpl pow; lra). apply Rmult_lt_0_compat; [|lra]. apply Rmult_lt_0_compat; [|lra]. apply Rmult_lt_0_compat; [|simpl pow; lra]. apply Rmult_lt_0_compat; [|lra]. apply Rdiv_lt_0_compat; [|lra]. apply Rmult_lt_0_compat; lra.
Qed.
Example C125_nonvacuous : exists nsp sp Ru T rho gamma cp y, pureGas nsp 0 y /\ realSpecies (sp 0%Z) /\ 0 < Ru /\ gamma <> 0 /\ 0 < T /\ 0 < rho /\
  0 < chungConductivity (sp 0%Z) T rho (cp / gamma * cMW (sp 0%Z) / Ru) /\ 0 < chungViscosity (sp 0%Z) T rho + excess (sp 0%Z) T rho /\
  shape (cAc (sp 0%Z)) (spMr (sp 0%Z)) <> 1 /\ coefficient rowsE (cAc (sp 0%Z)) (spMr (sp 0%Z)) 6 <> 0.
Proof.
  exists 1%Z, (fun _ => gas0), 1, 1, 10, (7/5), (7/2), (fun _ => 0). split; [intros n Hn; assert (n = 0)%Z by lia; subst n; unfold withLast, sumZ; cbn; lra|].
  split; [exact gas0_real|]. split; [lra|]. split; [lra|]. split; [lra|]. split; [lra|].
  split; [replace (7/2 / (7/5) * cMW gas0 / 1) with (5/2) by (cbn [gas0 cMW]; lra); exact gas0_conductivity|]. split; [exact gas0_viscosity|].
  split; [rewrite gas0_shape; lra|]. assert (c6 : coefficient rowsE (cAc gas0) (spMr gas0) 6 = -1.9 - 1.2537) by rowv. rewrite c6. lra.
Qed.
Print Assumptions C124_viscosity_refuted.
Print Assumptions C125_viscosity_refuted.
Print Assumptions C125_mixture.
