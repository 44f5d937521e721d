(** Chemistry: finite rates (C103), quasi-positivity (C102), second law and equilibrium (C101). *)
From Coq Require Import Reals ZArith List Bool Lia Lra.
From Verif Require Import M_Halo S_Sum L_Grid1 L_Sum M_Thermo S_Thermo L_Thermo M_Chem M_Chem_FFCMY M_Chem_Skeletal M_Chem_GRI30 S_Chem L_Chem P_Chem.
Import ListNotations.
Open Scope R_scope.

(** *** C103: rates are finite *)
Definition covers (nsp : Z) (tb : list (Z * decimal)) : bool := forallb (fun n => existsb (fun ic => (fst ic =? n)%Z) tb) (zrange 0 nsp).
Definition nonnegD (d : decimal) : bool := let 'D m _ := d in (0 <=? m)%Z.
Definition leD (d : decimal) (num den : Z) : bool := (* d <= num/den for den > 0 *)
  let 'D m e := d in if (e <=? 0)%Z then (m * den <=? num * 10 ^ (- e))%Z else (m * 10 ^ e * den <=? num)%Z.
Definition geD (d : decimal) (num den : Z) : bool :=
  let 'D m e := d in if (e <=? 0)%Z then (num * 10 ^ (- e) <=? m * den)%Z else (num <=? m * 10 ^ e * den)%Z.
Definition finiteReac (nsp : Z) (r : reac) : bool :=
  match rKind r with
  | Troe tb k0 a T3 T1 T2 => covers nsp tb && pos T3 && pos T1 && nonnegD a && leD a 19999 10000 && geD T2 (-1) 10 && (leD a 1 1 || leD T2 0 1)
  | _ => true
  end.
Lemma powerRZ_dec m e : (e <= 0)%Z -> IZR m * powerRZ 10 e = IZR m / IZR (10 ^ (- e)).
Proof.
  intros H. unfold Rdiv. f_equal. replace e with (- - e)%Z at 1 by lia. rewrite powerRZ_neg'. f_equal.
  assert (0 <= - e)%Z as P by lia. revert P. generalize (- e)%Z. intros k Hk. rewrite <- (Z2Nat.id k) by lia. rewrite <- pow_powerRZ, <- pow_IZR. auto.
Qed.
Lemma powerRZ_inc m e : (0 <= e)%Z -> IZR m * powerRZ 10 e = IZR (m * 10 ^ e).
Proof. intros H. rewrite mult_IZR. f_equal. rewrite <- (Z2Nat.id e) by lia. rewrite <- pow_powerRZ, <- pow_IZR. auto. Qed.
Lemma leD_ok d num den : (0 < den)%Z -> leD d num den = true -> decR d <= IZR num / IZR den.
Proof.
  intros Hd. destruct d as [m e]. unfold leD, decR. apply IZR_lt in Hd. destruct (Z.leb_spec e 0) as [He|He]; intros H.
  - apply Z.leb_le, IZR_le in H. rewrite !mult_IZR in H. rewrite powerRZ_dec by auto. assert (0 < IZR (10 ^ (- e))) by (apply IZR_lt, Z.pow_pos_nonneg; lia).
    apply Rmult_le_reg_r with (IZR (10 ^ (- e)) * IZR den); [apply Rmult_lt_0_compat; auto|]. field_simplify; [|lra|lra]. lra.
  - apply Z.leb_le, IZR_le in H. rewrite mult_IZR in H. rewrite powerRZ_inc by lia. apply Rmult_le_reg_r with (IZR den); auto. field_simplify; [|lra]. lra.
Qed.
Lemma geD_ok d num den : (0 < den)%Z -> geD d num den = true -> IZR num / IZR den <= decR d.
Proof.
  intros Hd. destruct d as [m e]. unfold geD, decR. apply IZR_lt in Hd. destruct (Z.leb_spec e 0) as [He|He]; intros H.
  - apply Z.leb_le, IZR_le in H. rewrite !mult_IZR in H. rewrite powerRZ_dec by auto. assert (0 < IZR (10 ^ (- e))) by (apply IZR_lt, Z.pow_pos_nonneg; lia).
    apply Rmult_le_reg_r with (IZR (10 ^ (- e)) * IZR den); [apply Rmult_lt_0_compat; auto|]. field_simplify; [|lra|lra]. lra.
  - apply Z.leb_le, IZR_le in H. rewrite mult_IZR in H. rewrite powerRZ_inc by lia. apply Rmult_le_reg_r with (IZR den); auto. field_simplify; [|lra]. lra.
Qed.
Lemma nonnegD_ok d : nonnegD d = true -> 0 <= decR d.
Proof. destruct d as [m e]. cbn. intros H. apply Z.leb_le, IZR_le in H. apply Rmult_le_pos; auto. apply Rlt_le, powerRZ_10_pos. Qed.
Lemma exp_neg_le1 x : 0 <= x -> exp (- x) <= 1.
Proof. intros H. rewrite <- exp_0. destruct H as [H| <-]; [apply Rlt_le, exp_increasing; lra|]. rewrite Ropp_0. lra. Qed.
Lemma fcent_bounds a T3 T1 T2 T : 0 < T3 -> 0 < T1 -> 0 <= a <= 19999/10000 -> - (1/10) <= T2 -> a <= 1 \/ T2 <= 0 -> 1 <= T -> 0 < fcent a T3 T1 T2 T <= 312/100.
Proof.
  intros H3 H1 Ha H2 Hc HT. unfold fcent.
  assert (E1: 0 < exp (- T / T3) < 1).
  { split; [apply exp_pos|]. rewrite <- exp_0. apply exp_increasing. assert (0 < T / T3) by (apply Rdiv_lt_0_compat; lra). unfold Rdiv in *. lra. }
  assert (E2: 0 < exp (- T / T1) < 1).
  { split; [apply exp_pos|]. rewrite <- exp_0. apply exp_increasing. assert (0 < T / T1) by (apply Rdiv_lt_0_compat; lra). unfold Rdiv in *. lra. }
  assert (HI: 0 < 1 / T <= 1) by (split; [apply Rdiv_lt_0_compat; lra|apply Rmult_le_reg_r with T; [lra|]; field_simplify; lra]).
  assert (E3: 0 < exp (- T2 * (1 / T)) <= 112/100).
  { split; [apply exp_pos|]. assert (X: - T2 * (1 / T) <= 1/10) by nra.
    apply Rle_trans with (exp (1/10)); [destruct X as [X| ->]; [apply Rlt_le, exp_increasing; auto|lra]|].
    assert (Y: 1 - 1/10 <= exp (- (1/10))) by (pose proof (exp_ineq1_le (- (1/10))); lra). rewrite exp_Ropp in Y. pose proof (exp_pos (1/10)).
    assert (exp (1/10) * (9/10) <= 1); [|lra]. apply Rle_trans with (exp (1/10) * / exp (1/10)); [apply Rmult_le_compat_l; lra|]. rewrite Rinv_r; lra. }
  set (e1 := exp (- T / T3)) in *. set (e2 := exp (- T / T1)) in *. set (e3 := exp (- T2 * (1 / T))) in *.
  destruct (Rle_dec a 1) as [L|L].
  - split; nra.
  - destruct Hc as [Hc|Hc]; [lra|]. assert (1 <= e3).
    { unfold e3. apply Rle_trans with (exp 0); [rewrite exp_0; lra|]. assert (0 <= - T2 * (1 / T)) as [X|X] by (apply Rmult_le_pos; lra); [apply Rlt_le, exp_increasing; auto|rewrite <- X; lra]. }
    split; nra.
Qed.
Lemma troe_some a T3 T1 T2 T Pr : 0 < T3 -> 0 < T1 -> 0 <= a <= 19999/10000 -> - (1/10) <= T2 -> a <= 1 \/ T2 <= 0 -> 1 <= T -> 0 < Pr -> exists x, troe a T3 T1 T2 T Pr = Some x.
Proof.
  intros H3 H1 Ha H2 Hc HT HP. pose proof (fcent_bounds a T3 T1 T2 T H3 H1 Ha H2 Hc HT) as B. unfold troe. cbv zeta. set (F := fcent a T3 T1 T2 T) in *.
  destruct (Rle_dec F 0); [lra|]. destruct (Rle_dec Pr 0); [lra|]. destruct (Req_EM_T _ 0) as [E|E]; [|eauto]. destruct (Req_EM_T _ 0) as [E'|E']; [|eauto].
  exfalso. rewrite E' in E. unfold log10 in E.
  assert (L10: 0 < ln 10) by (rewrite <- ln_1; apply ln_increasing; lra).
  assert (LF: 2 * ln F <= ln 10). { replace (2 * ln F) with (ln (F * F)) by (rewrite ln_mult by lra; lra). assert (F * F < 10) by nra. apply Rlt_le, ln_increasing; [apply Rmult_lt_0_compat; lra|auto]. }
  assert (Q: ln F / ln 10 <= 1/2) by (apply Rmult_le_reg_r with (ln 10); auto; field_simplify; lra). lra.
Qed.
Lemma finite_ffcmy : forallb (finiteReac (m_ns ffcmy)) (m_reacs ffcmy) = true. Proof. vm_compute. reflexivity. Qed.
Lemma finite_skeletal : forallb (finiteReac (m_ns skeletal)) (m_reacs skeletal) = true. Proof. vm_compute. reflexivity. Qed.
Lemma finite_gri30 : forallb (finiteReac (m_ns gri30)) (m_reacs gri30) = true. Proof. vm_compute. reflexivity. Qed.
Lemma some_positive nsp Y : (1 <= nsp)%Z -> exists n, (0 <= n < nsp)%Z /\ 0 < clampY nsp Y n.
Proof.
  intros HN. destruct (Classical_Prop.classic (exists n, (0 <= n < nsp)%Z /\ 0 < clampY nsp Y n)) as [|H]; auto. exfalso.
  pose proof (clampY_sum nsp Y HN) as S. rewrite sumZ_zero in S; [lra|]. intros i Hi. pose proof (clampY_nonneg nsp Y i Hi).
  destruct (Rlt_dec 0 (clampY nsp Y i)); [exfalso; apply H; eauto|lra].
Qed.
Lemma rates_finite m t T cs gbs pr : mechanism m t -> (forall n, (0 <= n < m_ns m)%Z -> 0 <= cs n) -> (exists i, (0 <= i < m_ns m)%Z /\ 0 < cs i) -> 1 <= T ->
  exists q, rates (m_reacs m) T cs gbs pr = Some q.
Proof.
  intros HM Hc (i & Hi & Hpos) HT. destruct (checked m t HM) as (_ & _ & _ & _ & PR & N).
  assert (F: forallb (finiteReac (m_ns m)) (m_reacs m) = true) by (destruct HM; [apply finite_ffcmy|apply finite_skeletal|apply finite_gri30]).
  apply rates_some. intros r Hin. rewrite forallb_forall in F, PR. specialize (F r Hin). specialize (PR r Hin).
  unfold rate. assert (exists k, forwardK r T cs = Some k) as (k & ->); [|eauto].
  unfold forwardK. unfold finiteReac in F. unfold posReac in PR. destruct (rKind r) as [|tb|tb k0|tb k0 a T3 T1 T2]; cbv zeta; eauto.
  rewrite !andb_true_iff in PR. rewrite !andb_true_iff in F. destruct F as ((((((F1 & F2) & F3) & F4) & F5) & F6) & F7). destruct PR as (K1 & (((P1 & P2) & P3) & P4)).
  assert (Pr: 0 < tbc tb cs * kval k0 T / kval (rK r) T).
  { apply Rdiv_lt_0_compat; [|apply kval_pos; auto; lra]. apply Rmult_lt_0_compat; [|apply kval_pos; auto; lra].
    apply (tbc_pos (m_ns m) tb cs i); auto. unfold covers in F1. rewrite forallb_forall in F1. apply F1. apply zrange_in. lia. }
  assert (A1: 0 <= decR a <= 19999/10000) by (split; [now apply nonnegD_ok|]; apply (leD_ok a 19999 10000) in F5; [auto|lia]).
  assert (A2: - (1/10) <= decR T2) by (apply (geD_ok T2 (-1) 10) in F6; [lra|lia]).
  assert (A3: decR a <= 1 \/ decR T2 <= 0) by (apply orb_true_iff in F7 as [F7|F7]; [left; apply (leD_ok a 1 1) in F7; [lra|lia]|right; apply (leD_ok T2 0 1) in F7; [lra|lia]]).
  destruct (troe_some (decR a) (decR T3) (decR T1) (decR T2) T _ (pos_decR _ F2) (pos_decR _ F3) A1 A2 A3 HT Pr) as (x & ->). eauto.
Qed.
(** C103: in every state with positive density and temperature of at least 1 K every reaction rate of every mechanism is a number: whatever
    the mass fractions (they are clipped first), no fall-off expression evaluates the logarithm of zero or divides zero by zero *)
Theorem C103_rates_finite : forall m t th rho s, mechanism m t -> positiveMW th (m_ns m) -> 0 < rho -> 1 <= cT s ->
  exists q, stepRates m th rho s = Some q.
Proof.
  intros m t th rho s HM HP Hr HT. destruct (checked m t HM) as (_ & _ & _ & _ & _ & N). unfold stepRates. apply (rates_finite m t); auto.
  - intros n Hn. now apply concs_nonneg.
  - destruct (some_positive (m_ns m) (cY s) ltac:(lia)) as (i & Hi & Hpos). exists i. split; auto. unfold concs. apply Rdiv_lt_0_compat; [apply Rmult_lt_0_compat; auto|auto].
Qed.

(** *** C102: quasi-positivity *)
Lemma rate_absent nsp r T cs gbs pr q n : wfReac nsp r = true -> posReac nsp r = true -> 0 < T -> 0 < pr -> (forall i, (0 <= i < nsp)%Z -> 0 <= cs i) ->
  rate r T cs gbs pr = Some q -> (0 <= n < nsp)%Z -> cs n = 0 -> 0 <= q * IZR (net r n).
Proof.
  intros HW HP HT Hp Hc. unfold rate. destruct (forwardK r T cs) as [k|] eqn:EK; [|discriminate]. pose proof (forwardK_nonneg _ _ _ _ _ HP HT Hc EK) as Pk.
  cbv zeta. intros E Hn Hz. apply f_equal with (f := fun o => match o with Some x => x | None => 0 end) in E. cbv beta iota in E. subst q.
  unfold wfReac in HW. rewrite !andb_true_iff in HW. destruct HW as ((((A & B) & C) & P1) & P2). rewrite !conc_prod.
  pose proof (prodc_nonneg nsp _ _ A Hc) as F0. pose proof (prodc_nonneg nsp _ _ B Hc) as B0. pose proof (power_nonneg _ n P1) as N1. pose proof (power_nonneg _ n P2) as N2.
  assert (KE: 0 < equilK r gbs pr) by (unfold equilK; apply Rmult_lt_0_compat; [apply exp_pos|now apply powerRZ_lt]).
  assert (KB: - k / equilK r gbs pr <= 0). { unfold Rdiv. apply Rinv_0_lt_compat in KE. nra. }
  assert (QB: - k / equilK r gbs pr * prodc (rB r) cs <= 0) by nra. assert (QF: 0 <= k * prodc (rF r) cs) by (now apply Rmult_le_pos).
  unfold net. destruct (Z.lt_trichotomy (power (rB r) n - power (rF r) n) 0) as [L|[L|L]].
  - assert (Z0: prodc (rF r) cs = 0) by (apply (prodc_zero _ _ n); auto; lia). rewrite Z0, Rmult_0_r. apply IZR_lt in L. revert QB L.
    generalize (- k / equilK r gbs pr * prodc (rB r) cs) (IZR (power (rB r) n - power (rF r) n)). intros. destruct (rRev r); nra.
  - rewrite L. lra.
  - assert (Z0: prodc (rB r) cs = 0) by (apply (prodc_zero _ _ n); auto; lia). apply IZR_lt in L. revert QF L. generalize (k * prodc (rF r) cs) (IZR (power (rB r) n - power (rF r) n)). intros. destruct (rRev r); [|nra].
    rewrite Z0, Rmult_0_r. nra.
Qed.
(** C102: a species whose mass fraction is zero is never consumed, in any of the mechanisms *)
Theorem C102_absent_species_not_consumed : forall m t th rho s q n, mechanism m t -> positiveMW th (m_ns m) -> 0 < rho -> 0 < Ru th -> 0 < cT s ->
  stepRates m th rho s = Some q -> (0 <= n < m_ns m)%Z -> clampY (m_ns m) (cY s) n = 0 -> 0 <= massSource m th q n.
Proof.
  intros m t th rho s q n HM HP Hr HR HT H Hn Hz. destruct (checked m t HM) as (A & B & _ & _ & C & N). unfold massSource. apply Rmult_le_pos; [apply Rlt_le; auto|].
  unfold stepRates in H. rewrite molarSource_net by (auto; now apply rates_length in H). apply rsum_nonneg. apply rates_In in H.
  rewrite Forall_forall in *. intros [r x] Hin. cbn [fst snd]. specialize (H _ Hin). cbn [fst snd] in H. apply in_combine_l in Hin. rewrite forallb_forall in B, C.
  apply (rate_absent (m_ns m) r (cT s) (concs th rho (clampY (m_ns m) (cY s))) (nasaG th (cT s)) (pref th (cT s))); auto.
  - unfold pref. apply Rdiv_lt_0_compat; [lra|]. apply Rmult_lt_0_compat; lra.
  - intros i Hi. now apply concs_nonneg.
  - unfold concs. rewrite Hz. unfold Rdiv. ring.
Qed.
(** so from any valid composition there is a sub-step size below which no mass fraction becomes negative *)
Theorem C102_small_substeps_stay_nonnegative : forall m t th rho s q, mechanism m t -> positiveMW th (m_ns m) -> 0 < rho -> 0 < Ru th -> 0 < cT s ->
  stepRates m th rho s = Some q -> exists h, 0 < h /\ forall tSub s' d, 0 <= tSub <= h -> substep m th rho tSub s = Some (s', d) ->
  forall n, (0 <= n < m_ns m)%Z -> 0 <= cY s' n.
Proof.
  intros m t th rho s q HM HP Hr HR HT H.
  assert (G: forall k, (0 <= k)%Z -> exists h, 0 < h /\ forall n tSub, (0 <= n < Z.min k (m_ns m))%Z -> 0 <= tSub <= h ->
    0 <= clampY (m_ns m) (cY s) n + massSource m th q n / rho * tSub).
  { apply natlike_ind.
    - exists 1. split; [lra|]. intros. lia.
    - intros k Hk (h & Hh & Hall). destruct (Z.lt_ge_cases k (m_ns m)) as [L|L].
      2:{ exists h. split; auto. intros n tSub Hn. apply Hall. lia. }
      pose proof (clampY_nonneg (m_ns m) (cY s) k ltac:(lia)) as Y0. set (y := clampY (m_ns m) (cY s) k) in *. set (d := massSource m th q k / rho).
      destruct (Req_EM_T y 0) as [E|E].
      + assert (D: 0 <= d). { unfold d, Rdiv. apply Rmult_le_pos; [|apply Rlt_le, Rinv_0_lt_compat; auto]. apply (C102_absent_species_not_consumed m t th rho s q k HM HP Hr HR HT H); [lia|exact E]. }
        exists h. split; auto. intros n tSub Hn Ht. destruct (Z.eq_dec n k) as [->|NE]; [fold y d; nra|]. apply Hall; auto. lia.
      + assert (Yp: 0 < y) by lra. exists (Rmin h (y / (1 + Rabs d))). pose proof (Rabs_pos d) as AD. assert (YD: 0 < y / (1 + Rabs d)) by (apply Rdiv_lt_0_compat; lra).
        split; [now apply Rmin_glb_lt|]. intros n tSub Hn (T0 & T1). destruct (Z.eq_dec n k) as [->|NE].
        * fold y d. assert (T2: tSub <= y / (1 + Rabs d)) by (eapply Rle_trans; [exact T1|apply Rmin_r]).
          assert (T3: tSub * (1 + Rabs d) <= y) by (apply Rmult_le_compat_r with (r := 1 + Rabs d) in T2; [|lra]; unfold Rdiv in T2; rewrite Rmult_assoc, Rinv_l in T2; lra).
          assert (- d <= Rabs d) by (rewrite <- Rabs_Ropp; apply Rle_abs). nra.
        * apply Hall; [lia|]. split; auto. eapply Rle_trans; [exact T1|apply Rmin_l]. }
  destruct (G (m_ns m)) as (h & Hh & Hall). { destruct (checked m t HM) as (_ & _ & _ & _ & _ & N). lia. }
  exists h. split; auto. intros tSub s' d Ht Hs n Hn. unfold substep in Hs. rewrite H in Hs. cbv zeta in Hs.
  apply f_equal with (f := fun o => match o with Some (a, _) => cY a | None => fun _ => 0 end) in Hs. cbv beta iota in Hs. cbn [cY] in Hs. subst. rewrite <- Hs. apply Hall; auto. lia.
Qed.

(** *** C101: second law *)
(** C101: at positive concentrations every reversible reaction runs in the direction that lowers the Gibbs energy, and stands still exactly
    where its Gibbs energy change is zero; reactions written as irreversible run forward *)
Theorem C101_reaction_direction : forall m t th T cs r q, mechanism m t -> In r (m_reacs m) -> 0 < T -> 0 < Ru th ->
  (forall n, (0 <= n < m_ns m)%Z -> 0 < cs n) -> rate r T cs (nasaG th T) (pref th T) = Some q ->
  let dG := reactionGibbs (m_ns m) r (potential (nasaG th T) cs (pref th T)) in
  if rRev r then (dG < 0 -> 0 < q) /\ (dG = 0 -> q = 0) /\ (0 < dG -> q < 0) else 0 < q.
Proof.
  intros m t th T cs r q HM Hr HT HR Hc Hq dG. destruct (checked m t HM) as (_ & B & _ & G & P & _). rewrite forallb_forall in B, G, P.
  assert (HPr: 0 < pref th T) by (unfold pref; apply Rdiv_lt_0_compat; [lra|apply Rmult_lt_0_compat; lra]).
  destruct (rate_gibbs (m_ns m) r T cs (nasaG th T) (pref th T) q) as (qf & Hf & E); auto. fold dG in E.
  destruct (rRev r); [|lra]. pose proof (exp_pos dG). split; [|split]; intros H0.
  - apply exp_increasing in H0. rewrite exp_0 in H0. nra.
  - rewrite H0, exp_0 in E. nra.
  - apply exp_increasing in H0. rewrite exp_0 in H0. nra.
Qed.
(** C101: the ethylene skeletal mechanism, in which every reaction is reversible, never produces Gibbs energy: the sum over the species of
    chemical potential times molar source is at most zero, and at a state where every reaction's Gibbs energy change is zero nothing is produced *)
Lemma skeletal_reversible : forallb rRev (m_reacs skeletal) = true. Proof. vm_compute. reflexivity. Qed.
Theorem C101_gibbs_never_produced : forall th T cs q, 0 < T -> 0 < Ru th -> (forall n, (0 <= n < m_ns skeletal)%Z -> 0 < cs n) ->
  rates (m_reacs skeletal) T cs (nasaG th T) (pref th T) = Some q ->
  let mu := potential (nasaG th T) cs (pref th T) in
  sumZ 0 (m_ns skeletal) (fun n => mu n * molarSource skeletal q n) <= 0 /\
  ((forall r, In r (m_reacs skeletal) -> reactionGibbs (m_ns skeletal) r mu = 0) -> forall n, (0 <= n < m_ns skeletal)%Z -> molarSource skeletal q n = 0).
Proof.
  intros th T cs q HT HR Hc Hq mu. destruct (checked skeletal skeletal_formulas is_skeletal) as (A & _). pose proof (rates_length _ _ _ _ _ _ Hq) as HL. apply rates_In in Hq. rewrite Forall_forall in Hq.
  assert (D: forall r x, In (r, x) (combine (m_reacs skeletal) q) -> let dG := reactionGibbs (m_ns skeletal) r mu in (dG < 0 -> 0 < x) /\ (dG = 0 -> x = 0) /\ (0 < dG -> x < 0)).
  { intros r x Hin. pose proof (in_combine_l _ _ _ _ Hin) as Hr. specialize (Hq _ Hin). cbn [fst snd] in Hq.
    pose proof (C101_reaction_direction skeletal _ th T cs r x is_skeletal Hr HT HR Hc Hq) as Q. cbv zeta in Q.
    pose proof skeletal_reversible as SR. rewrite forallb_forall in SR. rewrite (SR r Hr) in Q. exact Q. }
  split.
  - rewrite species_reactions by auto. apply rsum_nonpos. rewrite Forall_forall. intros [r x] Hin. cbn [fst snd]. specialize (D r x Hin). cbv zeta in D.
    unfold reactionGibbs in D. destruct D as (D1 & D2 & D3). set (g := sumZ 0 (m_ns skeletal) (fun n => IZR (net r n) * mu n)) in *.
    destruct (Rtotal_order g 0) as [L|[L|L]]; [specialize (D1 L); nra|rewrite (D2 L); lra|assert (0 < g) as L' by lra; specialize (D3 L'); nra].
  - intros HE n Hn. rewrite molarSource_net by auto. unfold rsum. assert (Z0: Forall (fun rx : reac * R => snd rx = 0) (combine (m_reacs skeletal) q)).
    { rewrite Forall_forall. intros [r x] Hin. cbn [snd]. specialize (D r x Hin). cbv zeta in D. apply D. apply HE. eapply in_combine_l; eauto. }
    clear Hq D HE HL. induction Z0 as [|rx l Hx _ IH]; cbn [fold_right]; [auto|]. rewrite Hx, IH. lra.
Qed.
