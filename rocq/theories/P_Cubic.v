(** Properties C41, C87 and C88 for the real gas. *)
From Coq Require Import Reals ZArith List Bool Lia Lra Psatz FunctionalExtensionality.
From Verif Require Import M_Topology M_Halo M_Grid M_Metrics S_Metrics S_Sum M_Flux M_FluxKernels S_FluxKernels M_Thermo S_Thermo S_Cubic L_Grid1 L_Sum L_Vec L_Thermo P_Thermo P_Tpg.
Import ListNotations.
Open Scope R_scope.

Lemma pow2_gt_0 x : x <> 0 -> 0 < x ^ 2.
Proof. intros H. pose proof (Rsqr_pos_lt x H) as K. unfold Rsqr in K. lra. Qed.
Lemma Rpower_third x : 0 < x -> Rpower x (1/3) ^ 3 = x.
Proof. intros H. rewrite <- Rpower_pow by (unfold Rpower; apply exp_pos). rewrite Rpower_mult. replace (1/3 * INR 3) with 1 by (cbn [INR]; field). now apply Rpower_1. Qed.
Lemma Rpower_15 x : 0 < x -> Rpower x (15/10) = x * sqrt x.
Proof. intros H. replace (15/10) with (1 + /2) by field. rewrite Rpower_plus, Rpower_1, Rpower_sqrt by auto. reflexivity. Qed.

Section Depressed.
  Variables Q RR : R.
  Let dep x := x ^ 3 - 3 * Q * x + 2 * RR = 0.
  Lemma cardano : 0 < RR ^ 2 - Q ^ 3 -> RR <> 0 -> let S := - RR / Rabs RR * Rpower (Rabs RR + sqrt (RR ^ 2 - Q ^ 3)) (1 / 3) in
    dep (S + Q / S) /\ forall x, dep x -> x = S + Q / S.
  Proof.
    intros HM HR S. set (M := RR ^ 2 - Q ^ 3) in *. set (m := sqrt M) in *. set (r := Rabs RR) in *.
    assert (Hr: 0 < r) by (now apply Rabs_pos_lt). assert (Hm: 0 < m) by (now apply sqrt_lt_R0).
    assert (Hm2: m * m = M) by (apply sqrt_sqrt; lra).
    set (C := Rpower (r + m) (1 / 3)) in *. assert (C0: 0 < C) by (unfold C, Rpower; apply exp_pos). assert (C3: C ^ 3 = r + m) by (apply Rpower_third; lra).
    set (s := - RR / r) in *. assert (r2: r * r = RR * RR) by (unfold r; rewrite <- Rabs_mult; apply Rabs_pos_eq; nra).
    assert (s2: s * s = 1) by (unfold s; replace (- RR / r * (- RR / r)) with (RR * RR / (r * r)) by (field; lra); rewrite r2; field; lra).
    assert (sr: s * r = - RR) by (unfold s; field; lra).
    assert (s0: s <> 0) by (intros E; rewrite E in s2; lra).
    assert (S0: S <> 0) by (unfold S; apply Rmult_integral_contrapositive; split; auto; lra).
    assert (S3: S ^ 3 = s * (r + m)). { unfold S. replace ((s * C) ^ 3) with ((s * s) * s * C ^ 3) by ring. rewrite s2, C3. ring. }
    assert (Q3: Q ^ 3 = (r - m) * (r + m)) by (unfold M in Hm2; nra).
    assert (QS: Q ^ 3 / S ^ 3 = s * (r - m)).
    { rewrite Q3, S3. replace ((r - m) * (r + m) / (s * (r + m))) with ((r - m) / s) by (field; split; lra || auto).
      apply Rmult_eq_reg_r with s; auto. unfold Rdiv. rewrite Rmult_assoc, Rinv_l by auto. replace (s * (r - m) * s) with (s * s * (r - m)) by ring. rewrite s2. ring. }
    assert (D: dep (S + Q / S)).
    { unfold dep. replace ((S + Q / S) ^ 3 - 3 * Q * (S + Q / S) + 2 * RR) with (S ^ 3 + Q ^ 3 / S ^ 3 + 2 * RR) by (field; auto). rewrite QS, S3. lra. }
    split; [auto|]. intros x Hx. set (y := S + Q / S) in *.
    assert (Hy: 0 < y ^ 2 - 4 * Q).
    { replace (y ^ 2 - 4 * Q) with ((S - Q / S) ^ 2) by (unfold y; field; auto).
      assert (N: S - Q / S <> 0); [|apply pow2_gt_0; auto].
      intros E. assert (E2: S * S = Q). { apply Rmult_eq_reg_r with (/ S); [|now apply Rinv_neq_0_compat]. rewrite Rmult_assoc, Rinv_r by auto. unfold Rdiv in E. lra. }
      assert (E6: S ^ 3 * S ^ 3 = Q ^ 3) by (rewrite <- E2; ring). rewrite S3, Q3 in E6.
      replace (s * (r + m) * (s * (r + m))) with (s * s * ((r + m) * (r + m))) in E6 by ring. rewrite s2 in E6. nra. }
    unfold dep in *. assert (F: (x - y) * (x ^ 2 + x * y + y ^ 2 - 3 * Q) = 0) by (replace ((x - y) * (x ^ 2 + x * y + y ^ 2 - 3 * Q)) with ((x ^ 3 - 3 * Q * x) - (y ^ 3 - 3 * Q * y)) by ring; lra).
    apply Rmult_integral in F. destruct F as [F|F]; [lra|]. exfalso.
    assert (0 <= (x + y / 2) ^ 2) by apply pow2_ge_0. assert ((x + y / 2) ^ 2 = x ^ 2 + x * y + y ^ 2 / 4) by field. lra.
  Qed.
  Lemma cos_triple a : cos (3 * a) = 4 * cos a ^ 3 - 3 * cos a.
  Proof.
    replace (3 * a) with (2 * a + a) by ring. rewrite cos_plus, cos_2a_cos, sin_2a. pose proof (sin2_cos2 a) as H. unfold Rsqr in H.
    replace (2 * sin a * cos a * sin a) with (2 * cos a * (sin a * sin a)) by ring. replace (sin a * sin a) with (1 - cos a * cos a) by lra. ring.
  Qed.
  Lemma viete : RR ^ 2 - Q ^ 3 <= 0 -> Q <> 0 -> let th := acos (RR / Rpower Q (15 / 10)) in
    let y1 := - (2 * sqrt Q * cos (th / 3)) in let y2 := - (2 * sqrt Q * cos ((th + 2 * PI) / 3)) in let y3 := - (2 * sqrt Q * cos ((th - 2 * PI) / 3)) in
    forall x, dep x <-> x = y1 \/ x = y2 \/ x = y3.
  Proof.
    intros HM HQ th y1 y2 y3.
    assert (Q0: 0 < Q). { destruct (Rlt_or_le Q 0) as [H|H]; [|lra]. exfalso. assert (0 < (- Q) ^ 3) by (apply pow_lt; lra). assert (0 <= RR ^ 2) by apply pow2_ge_0. replace ((- Q) ^ 3) with (- Q ^ 3) in * by ring. lra. }
    set (g := sqrt Q) in *. assert (g0: 0 < g) by (now apply sqrt_lt_R0). assert (g2: g * g = Q) by (apply sqrt_sqrt; lra).
    assert (Ek: Rpower Q (15/10) = Q * g) by (now apply Rpower_15).
    assert (k0: 0 < Q * g) by nra.
    assert (Ct: cos th = RR / (Q * g)).
    { unfold th. rewrite Ek. assert (H: (RR / (Q * g)) ^ 2 <= 1).
      { replace ((RR / (Q * g)) ^ 2) with (RR ^ 2 / (Q ^ 2 * (g * g))) by (field; split; lra). rewrite g2. apply Rmult_le_reg_r with (Q ^ 2 * Q); [nra|]. unfold Rdiv. rewrite Rmult_assoc, Rinv_l by nra. nra. }
      apply cos_acos. nra. }
    assert (T3: 4 * cos (th / 3) ^ 3 - 3 * cos (th / 3) = RR / (Q * g)) by (rewrite <- cos_triple, <- Ct; f_equal; field).
    set (a := th / 3) in *. set (c := cos a) in *. set (s := sin a). pose proof (sin2_cos2 a) as H1. unfold Rsqr in H1. fold c s in H1.
    assert (s3: sqrt 3 * sqrt 3 = 3) by (apply sqrt_sqrt; lra).
    assert (Y2: cos ((th + 2 * PI) / 3) = - c / 2 - sqrt 3 / 2 * s).
    { replace ((th + 2 * PI) / 3) with (a + 2 * (PI / 3)) by (unfold a; field). rewrite cos_plus, cos_2PI3, sin_2PI3. fold c s. field. }
    assert (Y3: cos ((th - 2 * PI) / 3) = - c / 2 + sqrt 3 / 2 * s).
    { replace ((th - 2 * PI) / 3) with (a - 2 * (PI / 3)) by (unfold a; field). rewrite cos_minus, cos_2PI3, sin_2PI3. fold c s. field. }
    assert (F: forall x, x ^ 3 - 3 * Q * x + 2 * RR = (x - y1) * (x - y2) * (x - y3)).
    { intros x. unfold y1, y2, y3. rewrite Y2, Y3. fold c. set (w := sqrt 3) in *.
      assert (ER: RR = (4 * c ^ 3 - 3 * c) * (Q * g)) by (rewrite T3; field; lra).
      rewrite ER, <- g2.
      replace ((x - - (2 * g * c)) * (x - - (2 * g * (- c / 2 - w / 2 * s))) * (x - - (2 * g * (- c / 2 + w / 2 * s)))) with
        ((x + 2 * g * c) * (x ^ 2 - 2 * g * c * x + g ^ 2 * (c ^ 2 - (w * w) * (s * s)))) by field.
      rewrite s3. replace (s * s) with (1 - c * c) by lra. ring. }
    intros x. unfold dep. rewrite F. split.
    - intros H. apply Rmult_integral in H. destruct H as [H|H]; [apply Rmult_integral in H; destruct H|]; [left|right; left|right; right]; lra.
    - intros [->|[->| ->]]; ring.
  Qed.
End Depressed.

(** the polynomial in depressed form *)
Lemma depress z0 z1 z2 x : x ^ 3 + z2 * x ^ 2 + z1 * x + z0 = 0 <->
  (x + z2 / 3) ^ 3 - 3 * ((z2 ^ 2 - 3 * z1) / 9) * (x + z2 / 3) + 2 * ((2 * z2 ^ 3 - 9 * z2 * z1 + 27 * z0) / 54) = 0.
Proof. replace ((x + z2 / 3) ^ 3 - 3 * ((z2 ^ 2 - 3 * z1) / 9) * (x + z2 / 3) + 2 * ((2 * z2 ^ 3 - 9 * z2 * z1 + 27 * z0) / 54)) with (x ^ 3 + z2 * x ^ 2 + z1 * x + z0) by field. tauto. Qed.
Lemma cubicRoot_largest z0 z1 z2 Z : cubicRoot z0 z1 z2 = Some Z ->
  Z ^ 3 + z2 * Z ^ 2 + z1 * Z + z0 = 0 /\ forall x, x ^ 3 + z2 * x ^ 2 + z1 * x + z0 = 0 -> x <= Z.
Proof.
  unfold cubicRoot. cbv zeta. set (Q := (z2 ^ 2 - 3 * z1) / 9). set (RR := (2 * z2 ^ 3 - 9 * z2 * z1 + 27 * z0) / 54).
  destruct Rlt_dec as [HM|HM].
  - destruct Req_EM_T as [HR|HR]; [discriminate|]. intros [= <-]. destruct (cardano Q RR HM HR) as (D & U).
    set (S := - RR / Rabs RR * _) in *. split.
    + apply depress. fold Q RR. replace (S + Q / S - z2 / 3 + z2 / 3) with (S + Q / S) by ring. exact D.
    + intros x Hx. apply depress in Hx. fold Q RR in Hx. apply U in Hx. lra.
  - destruct Req_EM_T as [HQ|HQ]; [discriminate|]. intros [= <-]. pose proof (viete Q RR ltac:(lra) HQ) as V. cbv zeta in V.
    set (y1 := - (2 * sqrt Q * cos (_ / 3))) in *. set (y2 := - (2 * sqrt Q * cos ((_ + _) / 3))) in *. set (y3 := - (2 * sqrt Q * cos ((_ - _) / 3))) in *.
    set (m := Rmax _ _). split.
    + apply depress. fold Q RR. apply V. unfold m, Rmax. repeat destruct Rle_dec; [right; right|right; left|left|left]; lra.
    + intros x Hx. apply depress in Hx. fold Q RR in Hx. apply V in Hx. assert (y1 - z2 / 3 <= m) by apply Rmax_l.
      assert (Rmax (y2 - z2/3) (y3 - z2/3) <= m) by apply Rmax_r. pose proof (Rmax_l (y2 - z2/3) (y3 - z2/3)). pose proof (Rmax_r (y2 - z2/3) (y3 - z2/3)). lra.
Qed.
Lemma cubicRoot_none z0 z1 z2 : cubicRoot z0 z1 z2 = None <-> 2 * z2 ^ 3 - 9 * z2 * z1 + 27 * z0 = 0 /\ z2 ^ 2 <= 3 * z1.
Proof.
  unfold cubicRoot. cbv zeta. set (Q := (z2 ^ 2 - 3 * z1) / 9). set (N := 2 * z2 ^ 3 - 9 * z2 * z1 + 27 * z0).
  assert (EQ: z2 ^ 2 - 3 * z1 = 9 * Q) by (unfold Q; field).
  destruct Rlt_dec as [HM|HM]; destruct Req_EM_T as [H|H]; split; try discriminate.
  - intros _. split; [lra|]. rewrite H in HM. assert (Q ^ 3 < 0) by lra. assert (~ 0 <= Q) by (intros K; pose proof (pow_le Q 3 K); lra). lra.
  - auto.
  - intros (A & _). exfalso. apply H. rewrite A. field.
  - intros _. rewrite H in EQ. assert (E: (N / 54) ^ 2 <= 0) by (rewrite H in HM; nra). assert (N / 54 = 0). { destruct (Req_dec (N/54) 0); auto. pose proof (pow2_gt_0 _ H0). lra. } lra.
  - auto.
  - intros (A & B). exfalso. apply H. rewrite A in HM. replace (0 / 54) with 0 in HM by field. assert (0 <= Q ^ 3) by lra.
    assert (Q <= 0) by lra. destruct (Req_dec Q 0); auto. exfalso. assert (0 < (- Q) ^ 3) by (apply pow_lt; lra). replace ((- Q) ^ 3) with (- Q ^ 3) in * by ring. lra.
Qed.
Lemma pr_coeffs A B x : x ^ 3 + rgz2 A B * x ^ 2 + rgz1 A B * x + rgz0 A B = 0 <-> pengRobinson A B x.
Proof. unfold pengRobinson, rgz0, rgz1, rgz2, uRG, wRG. replace (x ^ 3 - (1 - B) * x ^ 2 + (A - 3 * B ^ 2 - 2 * B) * x - (A * B - B ^ 2 - B ^ 3)) with (x ^ 3 + - (1 + B - 2 * B) * x ^ 2 + (A + -1 * B ^ 2 - 2 * B - 2 * B ^ 2) * x + - (A * B + -1 * B ^ 2 + -1 * B ^ 2 * B)) by ring. tauto. Qed.

(** C41.  The compressibility factor returned satisfies the Peng-Robinson equation and is its largest real root, in both
    branches.  _partial: the root is undefined (NaN, here None) in the case of C41_inflection_refuted. *)
Theorem C41_largest_root_partial : forall A B Z, cubicRoot (rgz0 A B) (rgz1 A B) (rgz2 A B) = Some Z ->
  pengRobinson A B Z /\ forall x, pengRobinson A B x -> x <= Z.
Proof.
  intros A B Z H. destruct (cubicRoot_largest _ _ _ _ H) as (H1 & H2). split; [now apply pr_coeffs|]. intros x Hx. apply H2. now apply pr_coeffs.
Qed.
(** It is undefined exactly when the inflection point of a cubic without two turning points lies on the axis. *)
Theorem C41_defined_iff : forall z0 z1 z2, cubicRoot z0 z1 z2 = None <->
  let f := fun x => x ^ 3 + z2 * x ^ 2 + z1 * x + z0 in f (- z2 / 3) = 0 /\ (forall x, 0 <= 3 * x ^ 2 + 2 * z2 * x + z1).
Proof.
  intros. rewrite cubicRoot_none. cbv zeta. replace ((- z2 / 3) ^ 3 + z2 * (- z2 / 3) ^ 2 + z1 * (- z2 / 3) + z0) with ((2 * z2 ^ 3 - 9 * z2 * z1 + 27 * z0) / 27) by field.
  split; intros (A & B); (split; [lra|]).
  - intros x. assert (0 <= (3 * x + z2) ^ 2) by apply pow2_ge_0. nra.
  - specialize (B (- z2 / 3)). replace (3 * (- z2 / 3) ^ 2 + 2 * z2 * (- z2 / 3) + z1) with ((3 * z1 - z2 ^ 2) / 3) in B by field. lra.
Qed.
(** A supercritical state of a heavy gas (A = 0.56, B = 0.1) whose compressibility factor is 3/10 gets NaN. *)
Theorem C41_inflection_refuted : exists A B Z, 0 < A /\ 0 < B < Z /\ pengRobinson A B Z /\ (forall x, pengRobinson A B x -> x = Z) /\
  cubicRoot (rgz0 A B) (rgz1 A B) (rgz2 A B) = None.
Proof.
  exists (56/100), (1/10), (3/10). split; [lra|]. split; [lra|]. split; [unfold pengRobinson; lra|]. split.
  - intros x H. unfold pengRobinson in H. assert (F: (x - 3/10) * (x ^ 2 - 6/10 * x + 15/100) = 0) by lra. apply Rmult_integral in F. destruct F as [F|F]; [lra|]. exfalso. assert (0 <= (x - 3/10) ^ 2) by apply pow2_ge_0. nra.
  - apply cubicRoot_none. unfold rgz0, rgz1, rgz2, uRG, wRG. lra.
Qed.
Print Assumptions C41_largest_root_partial.

(** * the mixture *)
Section Mixture.
Variable th : thtr.
Hypothesis HG : goodGas th.
Variable y : Z -> R.
Hypothesis V : validFracs (ns th) y.
Let D := molesPerMass th y.
Lemma moles_gas : gasConstant th y = Ru th * D. Proof. reflexivity. Qed.
Lemma moles_pos : 0 < D.
Proof. pose proof (gas_pos th y HG V) as H. rewrite moles_gas in H. destruct HG as (_ & B & _). apply Rmult_lt_reg_l with (Ru th); [auto|]. rewrite Rmult_0_r. auto. Qed.
Lemma rgDenom_spec z : (forall n, (0 <= n < ns th - 1)%Z -> z n = y n) -> rgDenom th z = D.
Proof.
  intros E. unfold rgDenom, D, molesPerMass. rewrite accum_sum, lastY_sum. destruct HG as (A & _ & _).
  replace (ns th) with ((ns th - 1) + 1)%Z at 4 by lia. rewrite sumZ_snoc by lia. f_equal.
  - apply sumZ_ext. intros. unfold withLast. destruct (Z.eqb_spec i (ns th - 1)); [lia|]. now rewrite E.
  - unfold withLast. rewrite Z.eqb_refl. now rewrite (sumZ_ext _ _ z y).
Qed.
Variable Y : Z -> R.
Hypothesis EY : forall n, (0 <= n < ns th)%Z -> Y n = withLast (ns th) y n.
Let X := rgX th D Y.
Lemma X_spec n : (0 <= n < ns th)%Z -> X n = moleFrac th y n.
Proof. intros H. unfold X, rgX, moleFrac. now rewrite EY. Qed.
Lemma moleFrac_nonneg n : (0 <= n < ns th)%Z -> 0 <= moleFrac th y n.
Proof.
  intros H. pose proof moles_pos as HD. fold D. unfold moleFrac. fold D. destruct HG as (_ & _ & C). pose proof (C n H). pose proof (withLast_nonneg _ _ n V H).
  unfold Rdiv. repeat apply Rmult_le_pos; auto; left; now apply Rinv_0_lt_compat.
Qed.
Lemma rgMW_spec : rgMW th X = 1 / D.
Proof.
  pose proof moles_pos as HD. destruct HG as (A & B & C). unfold rgMW. rewrite accum_sum. rewrite (sumZ_ext _ _ _ (fun n => 1 / D * withLast (ns th) y n)).
  - rewrite sumZ_scale, sum_withLast by auto. ring.
  - intros i Hi. rewrite X_spec by auto. unfold moleFrac. fold D. pose proof (C i Hi). field. lra.
Qed.
Lemma rgBm_spec : rgBm th X = mixtureB th y.
Proof. unfold rgBm, mixtureB. rewrite accum_sum. apply sumZ_ext. intros i Hi. rewrite X_spec by auto. unfold speciesB, biConst, Rdiv. ring. Qed.
Lemma rgAi_spec T n : rgAi th T n = speciesA th T n.
Proof. unfold rgAi, speciesA, fOmega, aiConst, fw0, fw1, fw2. replace (457240 / 1000000) with (45724 / 100000) by field. unfold Rdiv. ring. Qed.
Lemma rgAm_spec T : rgAm th X T = mixtureA th y T.
Proof.
  unfold rgAm, mixtureA. rewrite accum_sum. apply sumZ_ext. intros i Hi. rewrite accum_sum. apply sumZ_ext. intros j Hj. now rewrite !X_spec, !rgAi_spec by auto.
Qed.
Lemma mixtureA_nonneg T : 0 <= mixtureA th y T.
Proof.
  unfold mixtureA. apply sumZ_nonneg. intros i Hi. apply sumZ_nonneg. intros j Hj. apply Rmult_le_pos; [|apply sqrt_pos]. apply Rmult_le_pos; now apply moleFrac_nonneg.
Qed.
Lemma mixtureB_pos : goodCrit th -> 0 < mixtureB th y.
Proof.
  intros GC. pose proof moles_pos as HD. destruct HG as (A & B & C). unfold mixtureB.
  replace 0 with (sumZ 0 (ns th) (fun n => withLast (ns th) y n * 0)). 2:{ rewrite (sumZ_ext _ _ _ (fun _ => 0)) by (intros; ring). apply sumZ_0. }
  rewrite (sumZ_ext _ _ (fun n => moleFrac th y n * speciesB th n) (fun n => withLast (ns th) y n * (/ MW th n / D * speciesB th n))).
  2:{ intros i Hi. unfold moleFrac. fold D. unfold Rdiv. ring. }
  apply weighted_lt; auto. intros n Hn. destruct (GC n Hn). pose proof (C n Hn). unfold speciesB, Rdiv.
  repeat apply Rmult_lt_0_compat; auto; try (now apply Rinv_0_lt_compat); lra.
Qed.
End Mixture.

Lemma pr_root_gt A B Z : 0 <= A -> 0 < B -> (forall x, pengRobinson A B x -> x <= Z) -> B < Z.
Proof.
  intros HA HB H. set (f := fun x => x ^ 3 - (1 - B) * x ^ 2 + (A - 3 * B ^ 2 - 2 * B) * x - (A * B - B ^ 2 - B ^ 3)).
  destruct (IVT f B (B + 2)) as (x & Hx & E).
  - unfold f. reg.
  - lra.
  - unfold f. nra.
  - unfold f. replace ((B + 2) ^ 3 - (1 - B) * (B + 2) ^ 2 + (A - 3 * B ^ 2 - 2 * B) * (B + 2) - (A * B - B ^ 2 - B ^ 3)) with (2 * B ^ 2 + 8 * B + 4 + 2 * A) by ring. nra.
  - specialize (H x E). destruct (Req_dec x B) as [->|N]; [|lra]. exfalso. unfold f in E. assert (B ^ 2 = 0) by nra. nra.
Qed.
Lemma pr_pressure RT p A B Z : 0 < RT -> 0 < p -> 0 < B < Z -> pengRobinson A B Z ->
  pengRobinsonPressure RT (A * RT ^ 2 / p) (B * RT / p) (Z * RT / p) p.
Proof.
  intros H1 H2 H3 H. split.
  - unfold Rdiv. apply Rlt_gt. apply Rmult_lt_compat_r; [now apply Rinv_0_lt_compat|]. nra.
  - assert (D0: 0 < Z ^ 2 + 2 * B * Z - B ^ 2) by nra.
    replace (RT / (Z * RT / p - B * RT / p)) with (p * (1 / (Z - B))) by (field; repeat split; nra).
    replace (A * RT ^ 2 / p / ((Z * RT / p) ^ 2 + 2 * (B * RT / p) * (Z * RT / p) - (B * RT / p) ^ 2)) with (p * (A / (Z ^ 2 + 2 * B * Z - B ^ 2))).
    2:{ replace ((Z * RT / p) ^ 2 + 2 * (B * RT / p) * (Z * RT / p) - (B * RT / p) ^ 2) with ((Z ^ 2 + 2 * B * Z - B ^ 2) * (RT / p) ^ 2) by (field; lra). field. repeat split; lra. }
    assert (1 / (Z - B) - A / (Z ^ 2 + 2 * B * Z - B ^ 2) = 1); [|nra].
    unfold pengRobinson in H. apply Rmult_eq_reg_r with ((Z - B) * (Z ^ 2 + 2 * B * Z - B ^ 2)); [|nra].
    replace ((1 / (Z - B) - A / (Z ^ 2 + 2 * B * Z - B ^ 2)) * ((Z - B) * (Z ^ 2 + 2 * B * Z - B ^ 2))) with ((Z ^ 2 + 2 * B * Z - B ^ 2) - A * (Z - B)) by (field; lra).
    lra.
Qed.
Lemma rgP_spec th a b v T p : pengRobinsonPressure (Ru th * T) a b v p -> rgP th a b v T = p.
Proof. intros (_ & ->). unfold rgP. replace (v * (v + b) + b * (v - b)) with (v ^ 2 + 2 * b * v - b ^ 2) by ring. reflexivity. Qed.
Lemma rgThermo_ext th X Y X' Y' MWm am bm A B Z T : (forall n, (0 <= n < ns th)%Z -> X n = X' n) -> (forall n, (0 <= n < ns th)%Z -> Y n = Y' n) ->
  rgThermo th X Y MWm am bm A B Z T = rgThermo th X' Y' MWm am bm A B Z T.
Proof.
  intros EX EY. unfold rgThermo.
  replace (tpgH th Y T) with (tpgH th Y' T) by (unfold tpgH; apply accum_ext; intros; now rewrite EY).
  replace (tpgCp th Y T) with (tpgCp th Y' T) by (unfold tpgCp; apply accum_ext; intros; now rewrite EY).
  replace (accum 0 (ns th) (fun n => accum 0 (ns th) (fun n2 => X n2 * X n * 1 * (fOmega th n2 * sqrt (rgAi th T n * Tcrit th n2 / pcrit th n2) + fOmega th n * sqrt (rgAi th T n2 * Tcrit th n / pcrit th n)))))
    with (accum 0 (ns th) (fun n => accum 0 (ns th) (fun n2 => X' n2 * X' n * 1 * (fOmega th n2 * sqrt (rgAi th T n * Tcrit th n2 / pcrit th n2) + fOmega th n * sqrt (rgAi th T n2 * Tcrit th n / pcrit th n))))).
  reflexivity. apply accum_ext. intros n Hn. apply accum_ext. intros m Hm. now rewrite !EX.
Qed.

(** What the primitive branch stores, for valid fractions. *)
Lemma cubicPrims_eq th c c' : goodGas th -> goodCrit th -> validFracs (ns th) (fracs c) -> 0 < c_p c -> 0 < cq c 4%Z ->
  cubicPrims th c = Some c' ->
  let y := fracs c in let T := cq c 4%Z in let D := molesPerMass th y in let Y := primsY (ns th) (cq c) in let X := rgX th D Y in
  let a := mixtureA th y T in let b := mixtureB th y in
  let A := rgAstar th a (c_p c) T in let B := rgBstar th b (c_p c) T in
  exists Z, cubicRoot (rgz0 A B) (rgz1 A B) (rgz2 A B) = Some Z /\ 0 < B < Z /\
    pengRobinsonPressure (Ru th * T) a b (Z * (Ru th * T) / c_p c) (c_p c) /\
    let t := rgThermo th X Y (1 / D) a b A B Z T in
    let rho := c_p c / (Z * (Ru th * D) * T) in
    let gc := rgGammaC A B Z (c_p c) T rho (rg_cp t) (rg_dZdT t) in
    let e := rg_h t - Z * (Ru th * D) * T in 0 < rho /\
    c' = mkCell (storeQ (ns th) (cQ c) rho (c_u c) (c_v c) (c_w c) (rho * e + halfSq (c_u c) (c_v c) (c_w c) * rho) Y) (clipPrims (ns th) (cq c))
       (storeqh (ns th) (ch c) (fst gc) (rg_cp t) (rho * rg_h t) (snd gc) (rho * e) (rg_hi t)).
Proof.
  intros HG GC V Hp HT E y T D Y X a b A B.
  assert (Pid: forall l, clipPrims (ns th) (cq c) l = cq c l) by (intros; now apply clipPrims_id).
  assert (EY: forall n, (0 <= n < ns th)%Z -> Y n = withLast (ns th) y n).
  { intros n Hn. destruct (primsY_valid (ns th) (cq c)) as (_ & W). unfold Y. rewrite W by auto. apply withLast_ext; auto. intros. now apply primsY_id. }
  assert (D0: 0 < D) by (now apply moles_pos).
  pose proof (proj1 (proj2 HG)) as Ru0.
  unfold cubicPrims in E. cbv zeta in E. rewrite !Pid in E. rewrite (rgDenom_spec th HG y) in E by (intros; apply Pid).
  fold Y D X T (c_p c) (c_u c) (c_v c) (c_w c) in E.
  assert (Eb: rgBm th X = b) by (now apply rgBm_spec). assert (Ea: rgAm th X T = a) by (now apply rgAm_spec). assert (Em: rgMW th X = 1 / D) by (now apply rgMW_spec).
  rewrite Ea, Eb, Em in E. fold A B in E. destruct (cubicRoot _ _ _) as [Z|] eqn:CR; [|discriminate].
  exists Z. split; [auto|]. pose proof (C41_largest_root_partial A B Z CR) as (PR & LR).
  assert (a0: 0 <= a) by (now apply mixtureA_nonneg). assert (b0: 0 < b) by (now apply mixtureB_pos).
  assert (T0: 0 < T) by exact HT. assert (RT: 0 < Ru th * T) by (now apply Rmult_lt_0_compat).
  assert (B0: 0 < B) by (unfold B, rgBstar; apply Rdiv_lt_0_compat; nra).
  assert (A0: 0 <= A) by (unfold A, rgAstar; apply Rmult_le_pos; [nra|left; apply Rinv_0_lt_compat; nra]).
  assert (BZ: B < Z) by (now apply (pr_root_gt A)). split; [lra|]. split.
  { pose proof (pr_pressure (Ru th * T) (c_p c) A B Z RT Hp (conj B0 BZ) PR) as P.
    replace (A * (Ru th * T) ^ 2 / c_p c) with a in P by (unfold A, rgAstar; field; repeat split; lra).
    replace (B * (Ru th * T) / c_p c) with b in P by (unfold B, rgBstar; field; repeat split; lra). exact P. }
  cbv zeta. set (rho := c_p c / (Z * (Ru th * D) * T)).
  assert (Z0: 0 < Z) by lra. assert (K0: 0 < Z * (Ru th * D) * T) by (repeat apply Rmult_lt_0_compat; auto).
  assert (R0: 0 < rho) by (now apply Rdiv_lt_0_compat). split; [auto|].
  injection E as <-. replace (Ru th / (1 / D)) with (Ru th * D) by (field; lra). fold rho.
  replace (c_p c / rho) with (Z * (Ru th * D) * T) by (unfold rho; field; repeat split; lra). reflexivity.
Qed.

(** C87 for the real gas: the density stored for a pressure and temperature obeys the Peng-Robinson law with the van der
    Waals mixture constants, and the conserved variables are coherent. *)
Theorem C87_cubic_state_relations : forall th c c', goodGas th -> goodCrit th -> validFracs (ns th) (fracs c) -> 0 < c_p c -> 0 < cq c 4%Z ->
  cubicPrims th c = Some c' ->
  let y := fracs c' in let T := cq c' 4%Z in
  0 < c_rho c' /\ c_p c' = c_p c /\ T = cq c 4%Z /\
  pengRobinsonPressure (Ru th * T) (mixtureA th y T) (mixtureB th y) (1 / (molesPerMass th y * c_rho c')) (c_p c') /\
  coherentN (ns th) c' /\ ch c' 2%Z = c_re c' + c_p c'.
Proof.
  intros th c c' HG GC V Hp HT E y T.
  destruct (cubicPrims_eq th c c' HG GC V Hp HT E) as (Z & CR & HB & PP & R0 & Ec). 
  assert (Pid: forall l, clipPrims (ns th) (cq c) l = cq c l) by (intros; now apply clipPrims_id).
  assert (Eq: cq c' = cq c) by (rewrite Ec; cbn [cq]; apply functional_extensionality; exact Pid).
  assert (Ey: y = fracs c) by (unfold y, fracs; now rewrite Eq).
  assert (D0: 0 < molesPerMass th y) by (rewrite Ey; now apply moles_pos).
  unfold T. rewrite Eq. set (T0 := cq c 4%Z) in *. rewrite Ey in *. set (D := molesPerMass th (fracs c)) in *.
  set (rho := c_p c / (Z * (Ru th * D) * T0)) in *. set (t := rgThermo _ _ _ _ _ _ _ _ _ _) in *.
  assert (Er: c_rho c' = rho) by (rewrite Ec; reflexivity).
  pose proof (proj1 (proj2 HG)) as Ru0.
  split; [rewrite Er; auto|]. split; [unfold c_p; now rewrite Eq|]. split; [auto|]. split; [|split].
  - replace (c_p c') with (c_p c) by (unfold c_p; now rewrite Eq). rewrite Er. replace (1 / (D * rho)) with (Z * (Ru th * T0) / c_p c); [auto|].
    unfold rho. field. repeat split; lra.
  - unfold coherentN. rewrite Er. assert (Eu: c_u c' = c_u c) by (unfold c_u; now rewrite Eq). assert (Ev: c_v c' = c_v c) by (unfold c_v; now rewrite Eq). assert (Ew: c_w c' = c_w c) by (unfold c_w; now rewrite Eq).
    rewrite Eu, Ev, Ew. split; [lra|]. split; [rewrite Ec; reflexivity|]. split; [rewrite Ec; reflexivity|]. split; [rewrite Ec; reflexivity|]. split.
    + assert (Ek: dot3 (vel c') (vel c') = dot3 (vel c) (vel c)) by (unfold vel; now rewrite Eu, Ev, Ew). rewrite Ek.
      unfold c_E, c_re. rewrite Ec. cbn [cQ ch]. unfold storeQ, storeqh. cbn [Z.eqb Pos.eqb]. rewrite halfSq_kin. unfold kinetic. field.
    + intros l Hl. replace l with (5 + (l - 5))%Z by lia. rewrite Eq. rewrite Ec. cbn [cQ]. rewrite storeQ_species by lia. rewrite primsY_id by (auto; lia). unfold fracs. ring.
  - replace (c_p c') with (c_p c) by (unfold c_p; now rewrite Eq). unfold c_re. rewrite Ec. cbn [ch]. unfold storeqh. cbn [Z.eqb Pos.eqb].
    assert (rho * (Z * (Ru th * D) * T0) = c_p c) by (unfold rho; field; repeat split; lra). lra.
Qed.
Print Assumptions C87_cubic_state_relations.

Lemma rgAt_ext th X Y X' Y' MWm Vm T : (forall n, (0 <= n < ns th)%Z -> X n = X' n) -> (forall n, (0 <= n < ns th)%Z -> Y n = Y' n) ->
  rgAt th X Y MWm Vm T = rgAt th X' Y' MWm Vm T.
Proof.
  intros EX EY. unfold rgAt.
  replace (rgBm th X) with (rgBm th X') by (unfold rgBm; apply accum_ext; intros; now rewrite EX).
  replace (rgAm th X T) with (rgAm th X' T) by (unfold rgAm; apply accum_ext; intros; apply accum_ext; intros; now rewrite !EX).
  cbv zeta. destruct cubicRoot; auto. now rewrite (rgThermo_ext th X Y X' Y').
Qed.
(** C88 for the real gas: whenever the primitive branch defines a state, the conserved branch recovers it exactly. *)
Theorem C88_cubic_round_trip : forall th c c', goodGas th -> goodCrit th -> validFracs (ns th) (fracs c) -> 0 < c_p c -> 1 <= cq c 4%Z ->
  cubicPrims th c = Some c' ->
  exists c'', cubicCons th c' = Some c'' /\ sameq (ns th) c'' c /\ sameQ (ns th) c'' c' /\ sameh (ns th) c'' c'.
Proof.
  intros th c c' HG GC V Hp HT E.
  destruct (cubicPrims_eq th c c' HG GC V Hp ltac:(lra) E) as (Z & CR & HB & PP & R0 & Ec).
  set (y := fracs c) in *. set (T := cq c 4%Z) in *. set (D := molesPerMass th y) in *. set (Yp := primsY (ns th) (cq c)) in *. set (Xp := rgX th D Yp) in *.
  set (a := mixtureA th y T) in *. set (b := mixtureB th y) in *. set (A := rgAstar th a (c_p c) T) in *. set (B := rgBstar th b (c_p c) T) in *.
  set (t := rgThermo _ _ _ _ _ _ _ _ _ _) in *. set (rho := c_p c / (Z * (Ru th * D) * T)) in *.
  set (gc := rgGammaC _ _ _ _ _ _ _ _) in *. set (e := rg_h t - Z * (Ru th * D) * T) in *.
  assert (Pid: forall l, clipPrims (ns th) (cq c) l = cq c l) by (intros; now apply clipPrims_id).
  assert (Eq: cq c' = cq c) by (rewrite Ec; cbn [cq]; apply functional_extensionality; exact Pid).
  assert (D0: 0 < D) by (now apply moles_pos). assert (T0: 0 < T) by lra. assert (Z0: 0 < Z) by lra.
  pose proof (proj1 (proj2 HG)) as Ru0.
  assert (EYp: forall n, (0 <= n < ns th)%Z -> Yp n = withLast (ns th) y n).
  { intros n Hn. destruct (primsY_valid (ns th) (cq c)) as (_ & W). unfold Yp. rewrite W by auto. apply withLast_ext; auto. intros. now apply primsY_id. }
  assert (Q0: cQ c' 0%Z = rho) by (rewrite Ec; reflexivity).
  assert (Q5: forall n, (0 <= n < ns th - 1)%Z -> cQ c' (5 + n)%Z = y n * cQ c' 0%Z).
  { intros n Hn. rewrite Q0, Ec. cbn [cQ]. rewrite storeQ_species by auto. rewrite EYp by lia. unfold withLast. destruct (Z.eqb_spec n (ns th - 1)); [lia|auto]. }
  set (Yc := consY (ns th) (cQ c')).
  assert (YC: forall n, (0 <= n < ns th)%Z -> Yc n = withLast (ns th) y n) by (intros; apply consY_of_partials; auto; rewrite Q0; auto).
  assert (RawC: forall n, (0 <= n < ns th - 1)%Z -> rawConsY (ns th) (cQ c') n = y n).
  { intros n Hn. unfold rawConsY, clipCons. rewrite (isSpecies_no _ 0) by lia. replace (isSpecies (ns th) (5 + n)) with true by (symmetry; apply isSpecies_iff; lia).
    rewrite Q5, Q0 by auto. destruct V as (V1 & _). specialize (V1 n Hn). fold y in V1. rewrite Rmin_left, Rmax_left by nra. field. lra. }
  assert (Den: rgDenom th (rawConsY (ns th) (cQ c')) = D) by (now apply rgDenom_spec).
  set (Xc := rgX th D Yc).
  assert (XX: forall n, (0 <= n < ns th)%Z -> Xc n = Xp n) by (intros; unfold Xc, Xp, rgX; now rewrite YC, EYp).
  assert (YY: forall n, (0 <= n < ns th)%Z -> Yc n = Yp n) by (intros; now rewrite YC, EYp).
  assert (QL: forall l, (l < 5)%Z -> consQ (ns th) (cQ c') l = cQ c' l) by (intros; now apply consQ_low).
  assert (MWc: rgMW th Xc = 1 / D) by (now apply rgMW_spec).
  assert (Vv: 1 / D / rho = Z * (Ru th * T) / c_p c) by (unfold rho; field; repeat split; lra).
  assert (At: rgAt th Xc Yc (1 / D) (1 / D / rho) T = Some (mkEv (c_p c) A B Z t)).
  { rewrite (rgAt_ext th Xc Yc Xp Yp) by auto. unfold rgAt. cbv zeta.
    assert (Eb: rgBm th Xp = b) by (now apply rgBm_spec). assert (Ea: rgAm th Xp T = a) by (now apply rgAm_spec).
    rewrite Eb, Ea, Vv. rewrite (rgP_spec _ _ _ _ _ _ PP). fold A B. rewrite CR. reflexivity. }
  assert (Ee: (cQ c' 4%Z - halfSq (cQ c' 1%Z) (cQ c' 2%Z) (cQ c' 3%Z) / cQ c' 0%Z) / cQ c' 0%Z = e).
  { rewrite Q0, Ec. cbn [cQ]. unfold storeQ; cbn [Z.eqb Pos.eqb]. unfold halfSq. field. lra. }
  assert (Nw: newtonRun (rgStep th Xc Yc (1 / D) (1 / D / rho) e) (cq c' 4%Z) = Some (T, T, 0)).
  { rewrite Eq. fold T. apply newtonRun_exact; [auto|]. exists T. split; [|auto]. unfold rgStep. rewrite At. cbn [ev_t ev_Z].
    replace (Ru th / (1 / D)) with (Ru th * D) by (field; lra). replace (e - (rg_h t - Z * (Ru th * D) * T)) with 0 by (unfold e; ring). f_equal. f_equal. unfold Rdiv. ring. }
  eexists. split.
  { unfold cubicCons. cbv zeta. rewrite !QL by lia. rewrite Ee, Den. fold Yc Xc. rewrite MWc, Q0, Nw, At. cbn [ev_p ev_A ev_B ev_Z ev_t]. fold gc. reflexivity. }
  split; [|split].
  - intros l Hl. cbn [cq]. rewrite Eq. apply (index_cases l (ns th - 1) (fun l => storeq _ _ _ _ _ _ _ _ l = cq c l)); [lia| | | | | |].
    1-5: unfold storeq; cbn [Z.eqb Pos.eqb]. 6: { intros n Hn. rewrite storeq_species by auto. rewrite YC by lia. unfold withLast. destruct (Z.eqb_spec n (ns th - 1)); [lia|reflexivity]. }
    + reflexivity.
    + rewrite Ec. cbn [cQ]. unfold storeQ; cbn [Z.eqb Pos.eqb]. unfold c_u. field. lra.
    + rewrite Ec. cbn [cQ]. unfold storeQ; cbn [Z.eqb Pos.eqb]. unfold c_v. field. lra.
    + rewrite Ec. cbn [cQ]. unfold storeQ; cbn [Z.eqb Pos.eqb]. unfold c_w. field. lra.
    + reflexivity.
  - intros l Hl. cbn [cQ]. apply (index_cases l (ns th - 1) (fun l => consQ (ns th) (cQ c') l = cQ c' l)); [lia| | | | | |]; try (apply QL; lia).
    intros n Hn. rewrite consQ_species by (auto; rewrite Q0; auto). rewrite Q5 by auto. fold Yc. rewrite YC by lia. unfold withLast. destruct (Z.eqb_spec n (ns th - 1)); [lia|auto].
  - intros l Hl. cbn [ch].
    assert (Ch: ch c' = storeqh (ns th) (ch c) (fst gc) (rg_cp t) (rho * rg_h t) (snd gc) (rho * e) (rg_hi t)) by (now rewrite Ec).
    rewrite Ch. unfold storeqh.
    destruct (l =? 0)%Z; auto. destruct (l =? 1)%Z; auto. destruct (l =? 2)%Z; auto. destruct (l =? 3)%Z; auto. destruct (l =? 4)%Z; auto.
    destruct ((5 <=? l) && (l <? 5 + ns th))%Z eqn:K; reflexivity.
Qed.
Print Assumptions C88_cubic_round_trip.

(** A state of the two-species gas for which the primitive branch is defined. *)
Lemma exCubic_vals : molesPerMass exTh (fracs exPrim) = 3/8 /\ moleFrac exTh (fracs exPrim) 0%Z = 2/3 /\ moleFrac exTh (fracs exPrim) 1%Z = 1/3.
Proof.
  assert (W0: withLast 2 (fracs exPrim) 0%Z = 1/2) by reflexivity.
  assert (W1: withLast 2 (fracs exPrim) 1%Z = 1/2). { unfold withLast, sumZ. cbn [Z.eqb Z.sub Z.add Z.opp Pos.eqb Pos.sub Z.pos_sub Pos.pred_double]. change (zrange 0 1) with [0%Z]. cbn [map fold_right]. unfold fracs. cbn. lra. }
  assert (D: molesPerMass exTh (fracs exPrim) = 3/8). { unfold molesPerMass, sumZ. cbn [ns exTh]. change (zrange 0 2) with [0%Z; 1%Z]. cbn [map fold_right]. rewrite W0, W1. cbn. lra. }
  split; [auto|]. unfold moleFrac. rewrite D. cbn [ns exTh]. rewrite W0, W1. cbn. lra.
Qed.
Example C88_cubic_nonvacuous : goodGas exTh /\ goodCrit exTh /\ validFracs (ns exTh) (fracs exPrim) /\ 0 < c_p exPrim /\ 1 <= cq exPrim 4%Z /\ exists c', cubicPrims exTh exPrim = Some c'.
Proof.
  destruct C37_nonvacuous as (A & _ & V & P & _). split; [auto|]. split.
  { intros n Hn. cbn. lra. }
  split; [auto|]. split; [auto|]. split; [cbn; lra|].
  unfold cubicPrims. cbv zeta. assert (Pid: forall l, clipPrims (ns exTh) (cq exPrim) l = cq exPrim l) by (intros; now apply clipPrims_id).
  rewrite !Pid. rewrite (rgDenom_spec exTh A (fracs exPrim)) by (intros; apply Pid).
  assert (EY: forall n, (0 <= n < ns exTh)%Z -> primsY (ns exTh) (cq exPrim) n = withLast (ns exTh) (fracs exPrim) n).
  { intros n Hn. destruct (primsY_valid (ns exTh) (cq exPrim)) as (_ & W). rewrite W by auto. apply withLast_ext; auto. intros. now apply primsY_id. }
  rewrite (rgBm_spec exTh (fracs exPrim)) by auto. rewrite (rgAm_spec exTh (fracs exPrim)) by auto.
  destruct exCubic_vals as (_ & M0 & M1).
  assert (EB: mixtureB exTh (fracs exPrim) = 77796 / 1000000 * 8 / 10). { unfold mixtureB, sumZ. cbn [ns exTh]. change (zrange 0 2) with [0%Z; 1%Z]. cbn [map fold_right]. fold exTh. rewrite M0, M1. unfold speciesB. cbn [Ru Tcrit pcrit exTh]. lra. }
  assert (ES: forall n, speciesA exTh 100 n = 45724 / 100000 * 640).
  { intros n. unfold speciesA. cbn [Ru Tcrit pcrit acentric exTh]. replace (100 / 100) with 1 by field. rewrite sqrt_1. lra. }
  assert (EA: mixtureA exTh (fracs exPrim) 100 = 45724 / 100000 * 640).
  { unfold mixtureA, sumZ. cbn [ns exTh]. change (zrange 0 2) with [0%Z; 1%Z]. cbn [map fold_right]. fold exTh. rewrite M0, M1, !ES. rewrite sqrt_square by lra. lra. }
  change (cq exPrim 4%Z) with 100. change (cq exPrim 0%Z) with 600. rewrite EA, EB.
  destruct (cubicRoot _ _ _) as [Z|] eqn:E; [eexists; reflexivity|]. exfalso.
  apply cubicRoot_none in E. destruct E as (_ & E2). unfold rgz1, rgz2, uRG, wRG, rgAstar, rgBstar in *. cbn [Ru exTh] in E2. lra.
Qed.
