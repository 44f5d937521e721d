(** ln 10 to ten decimals, from ln 10 = 23 ln(16/15) + 17 ln(25/24) + 10 ln(81/80) and the first terms of the series of ln((1+t)/(1-t)). *)
From Coq Require Import Reals ZArith Lra Lia Psatz.
Open Scope R_scope.

Definition halfLog (t : R) : R := ln (1 + t) - ln (1 - t).
Lemma halfLog_deriv t : -1 < t < 1 -> derivable_pt_lim halfLog t (/ (1 + t) + / (1 - t)).
Proof.
  intros [A B]. unfold halfLog.
  assert (E : / (1 + t) + / (1 - t) = / (1 + t) * (0 + 1) - / (1 - t) * (0 - 1)) by ring. rewrite E.
  apply (derivable_pt_lim_minus (fun x => ln (1 + x)) (fun x => ln (1 - x))).
  - apply (derivable_pt_lim_comp (fun x => 1 + x) ln); [apply (derivable_pt_lim_plus (fct_cte 1) id); [apply derivable_pt_lim_const|apply derivable_pt_lim_id]|apply derivable_pt_lim_ln; lra].
  - apply (derivable_pt_lim_comp (fun x => 1 - x) ln); [apply (derivable_pt_lim_minus (fct_cte 1) id); [apply derivable_pt_lim_const|apply derivable_pt_lim_id]|apply derivable_pt_lim_ln; lra].
Qed.
Definition poly5 (t : R) : R := 2 * t + 2 / 3 * t ^ 3 + 2 / 5 * t ^ 5.
Lemma mono_der f df a b : a < b -> (forall c, a <= c <= b -> derivable_pt_lim f c (df c)) -> (forall c, a < c < b -> 0 <= df c) -> f a <= f b.
Proof.
  intros L D P. destruct (MVT_cor2 f df a b L D) as (c & E & C). pose proof (P c C) as Q. assert (0 <= df c * (b - a)) by (apply Rmult_le_pos; lra). lra.
Qed.
Lemma deriv_poly c : derivable_pt_lim poly5 c (2 + 2 * c ^ 2 + 2 * c ^ 4).
Proof.
  unfold poly5. replace (2 + 2 * c ^ 2 + 2 * c ^ 4) with (2 * 1 + 2 / 3 * (INR 3 * c ^ Nat.pred 3) + 2 / 5 * (INR 5 * c ^ Nat.pred 5)) by (simpl; field).
  apply (derivable_pt_lim_plus (fun t => 2 * t + 2 / 3 * t ^ 3) (fun t => 2 / 5 * t ^ 5)).
  - apply (derivable_pt_lim_plus (fun t => 2 * t) (fun t => 2 / 3 * t ^ 3)).
    + apply (derivable_pt_lim_scal id 2). apply derivable_pt_lim_id.
    + apply (derivable_pt_lim_scal (fun t => t ^ 3)). apply derivable_pt_lim_pow.
  - apply (derivable_pt_lim_scal (fun t => t ^ 5)). apply derivable_pt_lim_pow.
Qed.
Lemma halfLog_bounds t : 0 < t <= 1 / 3 -> poly5 t <= halfLog t <= poly5 t + t ^ 7.
Proof.
  intros [P Q].
  assert (K : forall c, 0 <= c <= t -> 0 < (1 + c) * (1 - c)) by (intros c C; apply Rmult_lt_0_compat; lra).
  assert (F : forall c, 0 <= c <= t -> / (1 + c) + / (1 - c) - (2 + 2 * c ^ 2 + 2 * c ^ 4) = 2 * c ^ 6 * / ((1 + c) * (1 - c))).
  { intros c C. pose proof (K c C). field. split; lra. }
  assert (Z0 : halfLog 0 = 0) by (unfold halfLog; rewrite Rplus_0_r, Rminus_0_r, ln_1; ring).
  assert (Zp : poly5 0 = 0) by (unfold poly5; simpl; field).
  split.
  - assert (A : halfLog 0 - poly5 0 <= halfLog t - poly5 t).
    { apply (mono_der (fun x => halfLog x - poly5 x) (fun c => (/ (1 + c) + / (1 - c)) - (2 + 2 * c ^ 2 + 2 * c ^ 4)) 0 t P).
      - intros c C. apply (derivable_pt_lim_minus halfLog poly5); [apply halfLog_deriv; lra|apply deriv_poly].
      - intros c C. rewrite F by lra. assert (0 < / ((1 + c) * (1 - c))) by (apply Rinv_0_lt_compat, K; lra).
        assert (0 < c ^ 6) by (apply pow_lt; lra). nra. }
    rewrite Z0, Zp in A. lra.
  - assert (A : (poly5 0 + 0 ^ 7) - halfLog 0 <= (poly5 t + t ^ 7) - halfLog t).
    { apply (mono_der (fun x => (poly5 x + x ^ 7) - halfLog x) (fun c => ((2 + 2 * c ^ 2 + 2 * c ^ 4) + INR 7 * c ^ Nat.pred 7) - (/ (1 + c) + / (1 - c))) 0 t P).
      - intros c C. apply (derivable_pt_lim_minus (fun x => poly5 x + x ^ 7) halfLog); [|apply halfLog_deriv; lra].
        apply (derivable_pt_lim_plus poly5 (fun x => x ^ 7)); [apply deriv_poly|apply derivable_pt_lim_pow].
      - intros c C. assert (H := F c ltac:(lra)). replace (INR 7) with 7 by (simpl; lra). change (Nat.pred 7) with 6%nat.
        assert (I : / ((1 + c) * (1 - c)) <= 9 / 8). { apply Rmult_le_reg_r with ((1 + c) * (1 - c)); [apply K; lra|]. rewrite Rinv_l by (apply Rgt_not_eq, K; lra). nra. }
        assert (0 < c ^ 6) by (apply pow_lt; lra). assert (2 * c ^ 6 * / ((1 + c) * (1 - c)) <= 2 * c ^ 6 * (9 / 8)) by (apply Rmult_le_compat_l; lra). lra. }
    rewrite Z0, Zp in A. replace (0 ^ 7) with 0 in A by (simpl; ring). lra.
Qed.
Lemma ln_ratio a b : 0 < a -> 0 < b -> ln (a / b) = ln a - ln b.
Proof. intros A B. unfold Rdiv. rewrite ln_mult, ln_Rinv by (auto; apply Rinv_0_lt_compat; auto). ring. Qed.
Lemma halfLog_at n : 2 < IZR n -> halfLog (/ IZR n) = ln ((IZR n + 1) / (IZR n - 1)).
Proof.
  intros P. unfold halfLog. assert (0 < / IZR n) by (apply Rinv_0_lt_compat; lra). assert (/ IZR n < 1) by (rewrite <- Rinv_1; apply Rinv_lt_contravar; lra).
  rewrite <- ln_ratio by lra. f_equal. field. lra.
Qed.
Lemma ln_pow' x n : 0 < x -> ln (x ^ n) = INR n * ln x.
Proof. intros P. rewrite <- Rpower_pow by auto. unfold Rpower. apply ln_exp. Qed.
Lemma ln10_split : ln 10 = 23 * halfLog (/ 31) + 17 * halfLog (/ 49) + 10 * halfLog (/ 161).
Proof.
  rewrite !halfLog_at by lra. replace ((31 + 1) / (31 - 1)) with (16 / 15) by field. replace ((49 + 1) / (49 - 1)) with (25 / 24) by field.
  replace ((161 + 1) / (161 - 1)) with (81 / 80) by field.
  replace 10 with ((16 / 15) ^ 23 * (25 / 24) ^ 17 * (81 / 80) ^ 10) at 1 by (simpl; field).
  assert (0 < (16 / 15) ^ 23) by (apply pow_lt; lra). assert (0 < (25 / 24) ^ 17) by (apply pow_lt; lra). assert (0 < (81 / 80) ^ 10) by (apply pow_lt; lra).
  assert (0 < (16 / 15) ^ 23 * (25 / 24) ^ 17) by (apply Rmult_lt_0_compat; auto).
  rewrite !ln_mult, !ln_pow' by lra. replace (INR 23) with 23 by (simpl; lra). replace (INR 17) with 17 by (simpl; lra). replace (INR 10) with 10 by (simpl; lra). reflexivity.
Qed.
Lemma ln10_bounds : 2302585092 / 10 ^ 9 < ln 10 < 2302585096 / 10 ^ 9.
Proof.
  rewrite ln10_split. pose proof (halfLog_bounds (/ 31) ltac:(lra)) as A. pose proof (halfLog_bounds (/ 49) ltac:(lra)) as B. pose proof (halfLog_bounds (/ 161) ltac:(lra)) as C.
  unfold poly5 in A, B, C. cbn [pow] in *. lra.
Qed.
