(** C156: accuracy of cell gradients; C20, C22: cells below the clipping volume. *)
From Coq Require Import Reals ZArith List Bool Lra Lia Psatz Factorial.
From Coquelicot Require Import Coquelicot.
From Verif Require Import L_Vec M_Halo M_Grid M_Metrics S_Metrics P_Metrics L_Order2 S_Gradient.
Import ListNotations.
Open Scope R_scope.

(** Taylor's formula with the derivatives given *)
Lemma remainder n : forall (D : nat -> R -> R) M r, (forall k, (k < n)%nat -> forall t, derivable_pt_lim (D k) t (D (S k) t)) -> (forall t, 0 <= t <= r -> Rabs (D n t) <= M) ->
  forall x, 0 <= x <= r -> Rabs (D 0%nat x - sum_f_R0 (fun k => D k 0 * x ^ k / INR (fact k)) n + D n 0 * x ^ n / INR (fact n)) <= M * x ^ n / INR (fact n).
Proof.
  induction n as [|n IH]; intros D M r HD HM x Hx.
  - cbn [sum_f_R0 pow fact]. change (INR 1) with 1. specialize (HM x Hx). replace (D 0%nat x - D 0%nat 0 * 1 / 1 + D 0%nat 0 * 1 / 1) with (D 0%nat x) by field. lra.
  - pose proof (IH (fun k => D (S k)) M r ltac:(intros k Hk; apply HD; lia) HM) as IH'. cbv beta in IH'. clear IH.
    set (T := fun x => sum_f_R0 (fun k => D k 0 * x ^ k / INR (fact k)) (S n) - D (S n) 0 * x ^ S n / INR (fact (S n))).
    set (T' := fun x => sum_f_R0 (fun k => D (S k) 0 * x ^ k / INR (fact k)) n - D (S n) 0 * x ^ n / INR (fact n)).
    assert (fact_S : forall m, INR (fact (S m)) = INR (S m) * INR (fact m)) by (intros m; rewrite <- mult_INR; auto).
    assert (P : forall m c t, derivable_pt_lim (fun x => c * x ^ S m / INR (fact (S m))) t (c * t ^ m / INR (fact m))).
    { intros m c t. pose proof (derivable_pt_lim_scal (fun x => x ^ S m) (c / INR (fact (S m))) t _ (derivable_pt_lim_pow t (S m))) as Q. unfold mult_real_fct in Q. change (pred (S m)) with m in Q.
      replace (c * t ^ m / INR (fact m)) with (c / INR (fact (S m)) * (INR (S m) * t ^ m)) by (rewrite fact_S; field; split; [apply INR_fact_neq_0|apply not_0_INR; lia]).
      intros eps He. destruct (Q eps He) as (d & Hd). exists d. intros h H1 H2. specialize (Hd h H1 H2). replace (c * (t + h) ^ S m / INR (fact (S m))) with (c / INR (fact (S m)) * (t + h) ^ S m) by (unfold Rdiv; ring).
      replace (c * t ^ S m / INR (fact (S m))) with (c / INR (fact (S m)) * t ^ S m) by (unfold Rdiv; ring). exact Hd. }
    assert (DT : forall t, derivable_pt_lim T t (T' t)).
    { intros t. unfold T, T'. apply derivable_pt_lim_minus; [|apply P]. clear - P. induction n as [|n IH].
      - cbn [sum_f_R0]. replace (D 1%nat 0 * t ^ 0 / INR (fact 0)) with (0 + D 1%nat 0 * t ^ 0 / INR (fact 0)) by ring. apply (derivable_pt_lim_plus (fun x => D 0%nat 0 * x ^ 0 / INR (fact 0))); [|apply P]. cbn [pow fact]. apply derivable_pt_lim_const.
      - change (derivable_pt_lim (fun x => sum_f_R0 (fun k => D k 0 * x ^ k / INR (fact k)) (S n) + D (S (S n)) 0 * x ^ S (S n) / INR (fact (S (S n)))) t (sum_f_R0 (fun k => D (S k) 0 * t ^ k / INR (fact k)) n + D (S (S n)) 0 * t ^ S n / INR (fact (S n)))).
        apply (derivable_pt_lim_plus (fun x => sum_f_R0 (fun k => D k 0 * x ^ k / INR (fact k)) (S n))); [apply IH|apply P]. }
    assert (E : forall y, D 0%nat y - T y = D 0%nat y - sum_f_R0 (fun k => D k 0 * y ^ k / INR (fact k)) (S n) + D (S n) 0 * y ^ S n / INR (fact (S n))) by (intros; unfold T; ring).
    rewrite <- E.
    assert (B : forall t, 0 <= t <= r -> Rabs (D 1%nat t - T' t) <= M * t ^ n / INR (fact n)).
    { intros t Ht. specialize (IH' t Ht). unfold T'. replace (D 1%nat t - (sum_f_R0 (fun k => D (S k) 0 * t ^ k / INR (fact k)) n - D (S n) 0 * t ^ n / INR (fact n))) with
        (D 1%nat t - sum_f_R0 (fun k => D (S k) 0 * t ^ k / INR (fact k)) n + D (S n) 0 * t ^ n / INR (fact n)) by ring. exact IH'. }
    assert (Z : D 0%nat 0 - T 0 = 0).
    { unfold T. assert (S0 : sum_f_R0 (fun k => D k 0 * 0 ^ k / INR (fact k)) (S n) = D 0%nat 0).
      { clear. induction (S n) as [|m IH]; [cbn [sum_f_R0 pow fact]; change (INR 1) with 1; field|]. cbn [sum_f_R0]. rewrite IH. rewrite pow_i by lia. unfold Rdiv. ring. }
      rewrite S0, pow_i by lia. unfold Rdiv. ring. }
    assert (G : forall t, derivable_pt_lim (fun y => D 0%nat y - T y) t (D 1%nat t - T' t)) by (intros t; apply derivable_pt_lim_minus; [apply HD; lia|apply DT]).
    assert (G' : forall t, derivable_pt_lim (fun y => - (D 0%nat y - T y)) t (- (D 1%nat t - T' t))) by (intros t; apply (derivable_pt_lim_opp (fun y => D 0%nat y - T y)); apply G).
    pose proof (P n M) as GM.
    assert (M0 : M * 0 ^ S n / INR (fact (S n)) = 0) by (rewrite pow_i by lia; unfold Rdiv; ring).
    apply Rabs_le. split.
    + assert (- (D 0%nat x - T x) <= M * x ^ S n / INR (fact (S n))); [|lra].
      apply (grow (fun y => - (D 0%nat y - T y)) (fun y => M * y ^ S n / INR (fact (S n))) _ _ r G' GM); auto; [rewrite Z, M0; lra|]. intros t Ht. specialize (B t Ht). apply Rabs_le_between in B. lra.
    + apply (grow (fun y => D 0%nat y - T y) (fun y => M * y ^ S n / INR (fact (S n))) _ _ r G GM); auto; [rewrite Z, M0; lra|]. intros t Ht. specialize (B t Ht). apply Rabs_le_between in B. lra.
Qed.

(** the two-sided version *)
Lemma taylor n f D M r : derivatives n f D -> (forall t, - r <= t <= r -> Rabs (D n t) <= M) -> forall x, - r <= x <= r ->
  Rabs (f x - sum_f_R0 (fun k => D k 0 * x ^ k / INR (fact k)) n + D n 0 * x ^ n / INR (fact n)) <= M * Rabs x ^ n / INR (fact n).
Proof.
  intros (H0 & HD) HM x Hx. rewrite <- H0. destruct (Rle_dec 0 x) as [Px|Nx].
  - rewrite (Rabs_pos_eq x) by auto. apply (remainder n D M r); auto; [intros t Ht; apply HM; lra|lra].
  - rewrite (Rabs_left x) by lra.
    pose proof (remainder n (fun k t => (-1) ^ k * D k (- t)) M r) as Q. cbv beta in Q.
    assert (Q1 : forall k, (k < n)%nat -> forall t, derivable_pt_lim (fun t => (-1) ^ k * D k (- t)) t ((-1) ^ S k * D (S k) (- t))).
    { intros k Hk t. replace ((-1) ^ S k * D (S k) (- t)) with ((-1) ^ k * - D (S k) (- t)) by (cbn [pow]; ring). apply (derivable_pt_lim_scal (fun t => D k (- t))). apply neg_arg. intros; apply HD; auto. }
    assert (Q2 : forall t, 0 <= t <= r -> Rabs ((-1) ^ n * D n (- t)) <= M).
    { intros t Ht. rewrite Rabs_mult, <- RPow_abs. replace (Rabs (-1)) with 1 by (rewrite Rabs_left; lra). rewrite pow1, Rmult_1_l. apply HM. lra. }
    specialize (Q Q1 Q2 (- x) ltac:(lra)). rewrite Ropp_involutive in Q. rewrite Ropp_0 in Q. cbn [pow] in Q. rewrite Rmult_1_l in Q.
    assert (E : forall k, (-1) ^ k * D k 0 * (- x) ^ k / INR (fact k) = D k 0 * x ^ k / INR (fact k)).
    { intros k. replace (- x) with (-1 * x) by ring. rewrite Rpow_mult_distr. replace ((-1) ^ k * D k 0 * ((-1) ^ k * x ^ k)) with (((-1) ^ k * (-1) ^ k) * (D k 0 * x ^ k)) by ring.
      rewrite <- Rpow_mult_distr. replace (-1 * -1) with 1 by ring. rewrite pow1. unfold Rdiv. ring. }
    rewrite E in Q. erewrite sum_eq in Q; [exact Q|]. intros k _. cbv beta. apply E.
Qed.
Lemma central2 f D M h : 0 < h -> derivatives 3 f D -> (forall t, - h <= t <= h -> Rabs (D 3%nat t) <= M) -> Rabs ((f h - f (- h)) / (2 * h) - D 1%nat 0) <= M * h ^ 2 / 6.
Proof.
  intros Hh HD HM. pose proof (taylor 3 f D M h HD HM) as T. pose proof (T h ltac:(lra)) as T1. pose proof (T (- h) ltac:(lra)) as T2. clear T.
  rewrite Rabs_Ropp in T2. rewrite (Rabs_pos_eq h) in T1, T2 by lra. cbn [sum_f_R0] in T1, T2. change (fact 0) with 1%nat in *. change (fact 1) with 1%nat in *. change (fact 2) with 2%nat in *. change (fact 3) with 6%nat in *.
  replace (INR 1) with 1 in * by reflexivity. replace (INR 2) with 2 in * by reflexivity. replace (INR 6) with 6 in * by (cbn [INR]; lra). cbn [pow] in T1, T2. apply Rabs_le_between in T1, T2.
  replace ((f h - f (- h)) / (2 * h) - D 1%nat 0) with ((f h - f (- h) - 2 * h * D 1%nat 0) / (2 * h)) by (field; lra).
  unfold Rdiv at 1. rewrite Rabs_mult, (Rabs_pos_eq (/ (2 * h))) by (apply Rlt_le, Rinv_0_lt_compat; lra).
  apply Rle_trans with (M * h ^ 3 / 3 * / (2 * h)); [|apply Req_le; field; lra]. apply Rmult_le_compat_r; [apply Rlt_le, Rinv_0_lt_compat; lra|].
  apply Rabs_le. cbn [pow]. split; lra.
Qed.
Lemma central4 f D M h : 0 < h -> derivatives 5 f D -> (forall t, - (2 * h) <= t <= 2 * h -> Rabs (D 5%nat t) <= M) -> Rabs ((- f (2 * h) + 8 * f h - 8 * f (- h) + f (- (2 * h))) / (12 * h) - D 1%nat 0) <= M * h ^ 4 / 18.
Proof.
  intros Hh HD HM. pose proof (taylor 5 f D M (2 * h) HD HM) as T. pose proof (T h ltac:(lra)) as T1. pose proof (T (- h) ltac:(lra)) as T2. pose proof (T (2 * h) ltac:(lra)) as T3. pose proof (T (- (2 * h)) ltac:(lra)) as T4. clear T.
  rewrite Rabs_Ropp in T2, T4. rewrite (Rabs_pos_eq h) in T1, T2 by lra. rewrite (Rabs_pos_eq (2 * h)) in T3, T4 by lra. cbn [sum_f_R0] in T1, T2, T3, T4.
  change (fact 0) with 1%nat in *. change (fact 1) with 1%nat in *. change (fact 2) with 2%nat in *. change (fact 3) with 6%nat in *. change (fact 4) with 24%nat in *. change (fact 5) with 120%nat in *.
  replace (INR 1) with 1 in * by reflexivity. replace (INR 2) with 2 in * by reflexivity. replace (INR 6) with 6 in * by (rewrite INR_IZR_INZ; reflexivity). replace (INR 24) with 24 in * by (rewrite INR_IZR_INZ; reflexivity). replace (INR 120) with 120 in * by (rewrite INR_IZR_INZ; reflexivity).
  cbn [pow] in T1, T2, T3, T4. apply Rabs_le_between in T1, T2, T3, T4.
  replace ((- f (2 * h) + 8 * f h - 8 * f (- h) + f (- (2 * h))) / (12 * h) - D 1%nat 0) with ((- f (2 * h) + 8 * f h - 8 * f (- h) + f (- (2 * h)) - 12 * h * D 1%nat 0) / (12 * h)) by (field; lra).
  unfold Rdiv at 1. rewrite Rabs_mult, (Rabs_pos_eq (/ (12 * h))) by (apply Rlt_le, Rinv_0_lt_compat; lra).
  apply Rle_trans with (M * h ^ 5 * (2/3) * / (12 * h)); [|apply Req_le; field; lra]. apply Rmult_le_compat_r; [apply Rlt_le, Rinv_0_lt_compat; lra|].
  apply Rabs_le. cbn [pow]. split; lra.
Qed.

(** the value of the scheme along an edge, from the inverse metrics *)
Lemma along_edges X o a b c i j k (s1 s2 s3 : R) : affineGrid X o a b c -> tiny <= det3 a b c ->
  let E := gradE X i j k in let N := gradN X i j k in let C := gradC X i j k in
  let r := (s1 * vx E + s2 * vx N + s3 * vx C, s1 * vy E + s2 * vy N + s3 * vy C, s1 * vz E + s2 * vz N + s3 * vz C) in
  dot3 r a = s1 /\ dot3 r b = s2 /\ dot3 r c = s3.
Proof.
  intros H D E N C r. destruct (C20_inverse_jacobian X i j k (X i j k) a b c (affine_box X o a b c i j k H) D) as ((A1 & A2 & A3) & (B1 & B2 & B3) & (C1 & C2 & C3)).
  fold E N C in A1, A2, A3, B1, B2, B3, C1, C2, C3. clearbody E N C.
  assert (L : forall v, dot3 r v = s1 * dot3 E v + s2 * dot3 N v + s3 * dot3 C v) by (intros v; unfold r; vcomp; ring).
  rewrite !L, A1, A2, A3, B1, B2, B3, C1, C2, C3. repeat split; ring.
Qed.
Lemma shifted X o a b c i j k m : affineGrid X o a b c ->
  cellCentre X (i + m) j k = vadd (cellCentre X i j k) (vscale (IZR m) a) /\ cellCentre X i (j + m) k = vadd (cellCentre X i j k) (vscale (IZR m) b) /\ cellCentre X i j (k + m) = vadd (cellCentre X i j k) (vscale (IZR m) c).
Proof. intros H. rewrite !(affine_centre _ _ _ _ _ _ _ _ H), !plus_IZR. generalize (IZR i) (IZR j) (IZR k) (IZR m). clear. intros. repeat split; vext; ring. Qed.
Lemma onLine phi P u h m : phi (vadd P (vscale (IZR m) (vscale h u))) = S_Gradient.along phi P u (h * IZR m).
Proof. unfold S_Gradient.along. f_equal. f_equal. vext; ring. Qed.

(** C156.  On a grid of equal parallelepipeds, a field that is smooth along a grid line has, from the second-order
    scheme, the right derivative along that line up to h^2/6 times the bound of its third derivative between the two neighbours *)
Theorem C156_second_order : forall X o a b c phi i j k u h D M, affineGrid X o a b c -> tiny <= det3 a b c -> (edgeAlong a u h \/ edgeAlong b u h \/ edgeAlong c u h) ->
  derivatives 3 (S_Gradient.along phi (cellCentre X i j k) u) D -> (forall t, - h <= t <= h -> Rabs (D 3%nat t) <= M) ->
  Rabs (dot3 (dq2FD X (fun i j k => phi (cellCentre X i j k)) i j k) u - D 1%nat 0) <= M * h ^ 2 / 6.
Proof.
  intros X o a b c phi i j k u h D M HA HD He Hd HM. set (P := cellCentre X i j k) in *. set (f := S_Gradient.along phi P u) in *.
  set (q := fun i j k => phi (cellCentre X i j k)). unfold dq2FD. cbv zeta.
  set (s1 := 5/10 * (q (i+1)%Z j k - q (i-1)%Z j k)). set (s2 := 5/10 * (q i (j+1)%Z k - q i (j-1)%Z k)). set (s3 := 5/10 * (q i j (k+1)%Z - q i j (k-1)%Z)).
  destruct (along_edges X o a b c i j k s1 s2 s3 HA HD) as (E1 & E2 & E3).
  match goal with |- Rabs (dot3 ?rr u - _) <= _ => set (r := rr) in * end.
  pose proof (shifted X o a b c i j k 1 HA) as (P1 & P2 & P3). pose proof (shifted X o a b c i j k (-1) HA) as (M1 & M2 & M3). fold P in P1, P2, P3, M1, M2, M3.
  assert (Sc : forall v, dot3 r (vscale h v) = h * dot3 r v) by (intros v; clearbody r; vcomp; ring).
  assert (G : forall s, h * dot3 r u = s -> s = 5/10 * (f h - f (- h)) -> 0 < h -> Rabs (dot3 r u - D 1%nat 0) <= M * h ^ 2 / 6).
  { intros s Q1 Q2 Hh. replace (dot3 r u) with ((f h - f (- h)) / (2 * h)) by (apply (Rmult_eq_reg_l h); [|lra]; rewrite Q1, Q2; field; lra). apply (central2 f D M h); auto. }
  assert (L : forall m, phi (vadd P (vscale (IZR m) (vscale h u))) = f (h * IZR m)) by (intros m; apply onLine).
  assert (L1 : phi (vadd P (vscale 1 (vscale h u))) = f h) by (rewrite (L 1%Z); f_equal; ring). assert (L2 : phi (vadd P (vscale (-1) (vscale h u))) = f (- h)) by (rewrite (L (-1)%Z); f_equal; ring).
  destruct He as [(Hh & ->)|[(Hh & ->)|(Hh & ->)]].
  - rewrite Sc in E1. apply (G s1); auto. unfold s1, q. change (i - 1)%Z with (i + -1)%Z. rewrite P1, M1, L1, L2. ring.
  - rewrite Sc in E2. apply (G s2); auto. unfold s2, q. change (j - 1)%Z with (j + -1)%Z. rewrite P2, M2, L1, L2. ring.
  - rewrite Sc in E3. apply (G s3); auto. unfold s3, q. change (k - 1)%Z with (k + -1)%Z. rewrite P3, M3, L1, L2. ring.
Qed.
(** and from the fourth-order scheme up to h^4/18 times the bound of the fifth derivative *)
Theorem C156_fourth_order : forall X o a b c phi i j k u h D M, affineGrid X o a b c -> tiny <= det3 a b c -> (edgeAlong a u h \/ edgeAlong b u h \/ edgeAlong c u h) ->
  derivatives 5 (S_Gradient.along phi (cellCentre X i j k) u) D -> (forall t, - (2 * h) <= t <= 2 * h -> Rabs (D 5%nat t) <= M) ->
  Rabs (dot3 (dq4FD X (fun i j k => phi (cellCentre X i j k)) i j k) u - D 1%nat 0) <= M * h ^ 4 / 18.
Proof.
  intros X o a b c phi i j k u h D M HA HD He Hd HM. set (P := cellCentre X i j k) in *. set (f := S_Gradient.along phi P u) in *.
  set (q := fun i j k => phi (cellCentre X i j k)). unfold dq4FD. cbv zeta.
  set (s1 := - q (i+2)%Z j k + 8 * q (i+1)%Z j k - 8 * q (i-1)%Z j k + q (i-2)%Z j k). set (s2 := - q i (j+2)%Z k + 8 * q i (j+1)%Z k - 8 * q i (j-1)%Z k + q i (j-2)%Z k). set (s3 := - q i j (k+2)%Z + 8 * q i j (k+1)%Z - 8 * q i j (k-1)%Z + q i j (k-2)%Z).
  destruct (along_edges X o a b c i j k (s1/12) (s2/12) (s3/12) HA HD) as (E1 & E2 & E3).
  match goal with |- Rabs (dot3 ?rr u - _) <= _ => set (r0 := rr) in * end. match type of E1 with dot3 ?rr _ = _ => set (r := rr) in * end.
  assert (R : r0 = r) by (unfold r0, r; vext; field). rewrite R. clearbody r. clear R r0.
  pose proof (shifted X o a b c i j k 1 HA) as (P1 & P2 & P3). pose proof (shifted X o a b c i j k (-1) HA) as (M1 & M2 & M3). pose proof (shifted X o a b c i j k 2 HA) as (P4 & P5 & P6). pose proof (shifted X o a b c i j k (-2) HA) as (M4 & M5 & M6).
  fold P in P1, P2, P3, M1, M2, M3, P4, P5, P6, M4, M5, M6.
  assert (Sc : forall v, dot3 r (vscale h v) = h * dot3 r v) by (intros v; vcomp; ring).
  assert (G : forall s, h * dot3 r u = s / 12 -> s = - f (2 * h) + 8 * f h - 8 * f (- h) + f (- (2 * h)) -> 0 < h -> Rabs (dot3 r u - D 1%nat 0) <= M * h ^ 4 / 18).
  { intros s Q1 Q2 Hh. replace (dot3 r u) with ((- f (2 * h) + 8 * f h - 8 * f (- h) + f (- (2 * h))) / (12 * h)) by (apply (Rmult_eq_reg_l h); [|lra]; rewrite Q1, Q2; field; lra). apply (central4 f D M h); auto. }
  assert (L : forall m, phi (vadd P (vscale (IZR m) (vscale h u))) = f (h * IZR m)) by (intros m; apply onLine).
  assert (L1 : phi (vadd P (vscale 1 (vscale h u))) = f h) by (rewrite (L 1%Z); f_equal; ring). assert (L2 : phi (vadd P (vscale (-1) (vscale h u))) = f (- h)) by (rewrite (L (-1)%Z); f_equal; ring).
  assert (L3 : phi (vadd P (vscale 2 (vscale h u))) = f (2 * h)) by (rewrite (L 2%Z); f_equal; ring). assert (L4 : phi (vadd P (vscale (-2) (vscale h u))) = f (- (2 * h))) by (rewrite (L (-2)%Z); f_equal; ring).
  destruct He as [(Hh & ->)|[(Hh & ->)|(Hh & ->)]].
  - rewrite Sc in E1. apply (G s1); auto. unfold s1, q. change (i - 1)%Z with (i + -1)%Z. change (i - 2)%Z with (i + -2)%Z. rewrite P1, M1, P4, M4, L1, L2, L3, L4. ring.
  - rewrite Sc in E2. apply (G s2); auto. unfold s2, q. change (j - 1)%Z with (j + -1)%Z. change (j - 2)%Z with (j + -2)%Z. rewrite P2, M2, P5, M5, L1, L2, L3, L4. ring.
  - rewrite Sc in E3. apply (G s3); auto. unfold s3, q. change (k - 1)%Z with (k + -1)%Z. change (k - 2)%Z with (k + -2)%Z. rewrite P3, M3, P6, M6, L1, L2, L3, L4. ring.
Qed.

(** * cells smaller than the clipping volume *)
(** every cell of a right-handed affine grid: the stored volume is the larger of the true one and 1e-16, and the gradient of a linear field
    comes out multiplied by the ratio of the true to the stored volume *)
Theorem C20_volume_clipped : forall X i j k x1 a b c, boxCell X i j k x1 a b c -> volume X i j k = Rmax (det3 a b c) tiny.
Proof. intros. unfold volume, clip. rewrite (box_raw _ _ _ _ _ _ _ _ H). auto. Qed.
Theorem C22_linear_scaled : forall X o a b c q c0 g i j k, affineGrid X o a b c -> (forall i j k, q i j k = linearField c0 g (cellCentre X i j k)) ->
  dq2FD X q i j k = vscale (det3 a b c / Rmax (det3 a b c) tiny) g /\ dq4FD X q i j k = vscale (det3 a b c / Rmax (det3 a b c) tiny) g.
Proof.
  intros X o a b c q c0 g i j k H Hq. pose proof tiny_pos. pose proof (affine_box X o a b c i j k H) as B.
  assert (J0 : 0 < Rmax (det3 a b c) tiny) by (eapply Rlt_le_trans; [|apply Rmax_r]; auto).
  assert (T : forall J, 0 < J -> vadd (vscale (dot3 g a) ((vy b * vz c - vy c * vz b) / J, (vx b * vz c - vx c * vz b) / - J, (vx b * vy c - vx c * vy b) / J))
     (vadd (vscale (dot3 g b) ((vy a * vz c - vy c * vz a) / - J, (vx a * vz c - vx c * vz a) / J, (vx a * vy c - vx c * vy a) / - J))
           (vscale (dot3 g c) ((vy a * vz b - vy b * vz a) / J, (vx a * vz b - vx b * vz a) / - J, (vx a * vy b - vx b * vy a) / J))) = vscale (det3 a b c / J) g).
  { intros J HJ. clear - HJ. vext; field; lra. }
  assert (M : vadd (vscale (dot3 g a) (gradE X i j k)) (vadd (vscale (dot3 g b) (gradN X i j k)) (vscale (dot3 g c) (gradC X i j k))) = vscale (det3 a b c / Rmax (det3 a b c) tiny) g).
  { rewrite <- (T _ J0). unfold gradE, gradN, gradC. rewrite (C20_volume_clipped _ _ _ _ _ _ _ _ B), (box_E _ _ _ _ _ _ _ _ B), (box_N _ _ _ _ _ _ _ _ B), (box_C _ _ _ _ _ _ _ _ B). reflexivity. }
  rewrite <- M. split.
  - unfold dq2FD.
    assert (dE: 5/10 * (q (i+1)%Z j k - q (i-1)%Z j k) = dot3 g a).
    { rewrite !Hq, !(affine_centre _ _ _ _ _ _ _ _ H), !plus_IZR, minus_IZR. generalize (IZR i) (IZR j) (IZR k). clear. intros. unfold linearField. vcomp. field. }
    assert (dN: 5/10 * (q i (j+1)%Z k - q i (j-1)%Z k) = dot3 g b).
    { rewrite !Hq, !(affine_centre _ _ _ _ _ _ _ _ H), !plus_IZR, minus_IZR. generalize (IZR i) (IZR j) (IZR k). clear. intros. unfold linearField. vcomp. field. }
    assert (dC: 5/10 * (q i j (k+1)%Z - q i j (k-1)%Z) = dot3 g c).
    { rewrite !Hq, !(affine_centre _ _ _ _ _ _ _ _ H), !plus_IZR, minus_IZR. generalize (IZR i) (IZR j) (IZR k). clear. intros. unfold linearField. vcomp. field. }
    rewrite dE, dN, dC. clear. generalize (gradE X i j k) (gradN X i j k) (gradC X i j k). intros. vext; ring.
  - unfold dq4FD.
    assert (dE: - q (i+2)%Z j k + 8 * q (i+1)%Z j k - 8 * q (i-1)%Z j k + q (i-2)%Z j k = 12 * dot3 g a).
    { rewrite !Hq, !(affine_centre _ _ _ _ _ _ _ _ H), !plus_IZR, !minus_IZR. generalize (IZR i) (IZR j) (IZR k). clear. intros. unfold linearField. vcomp. field. }
    assert (dN: - q i (j+2)%Z k + 8 * q i (j+1)%Z k - 8 * q i (j-1)%Z k + q i (j-2)%Z k = 12 * dot3 g b).
    { rewrite !Hq, !(affine_centre _ _ _ _ _ _ _ _ H), !plus_IZR, !minus_IZR. generalize (IZR i) (IZR j) (IZR k). clear. intros. unfold linearField. vcomp. field. }
    assert (dC: - q i j (k+2)%Z + 8 * q i j (k+1)%Z - 8 * q i j (k-1)%Z + q i j (k-2)%Z = 12 * dot3 g c).
    { rewrite !Hq, !(affine_centre _ _ _ _ _ _ _ _ H), !plus_IZR, !minus_IZR. generalize (IZR i) (IZR j) (IZR k). clear. intros. unfold linearField. vcomp. field. }
    rewrite dE, dN, dC. clear. generalize (gradE X i j k) (gradN X i j k) (gradC X i j k). intros. vext; field.
Qed.
(** cubes of one micrometre: the stored volume is a hundred times the true one and gradients a hundred times too small *)
Definition micron : nodes := fun i j k => (IZR i / 1000000, IZR j / 1000000, IZR k / 1000000).
Definition edge1 : R := / 1000000.
Lemma micron_affine : affineGrid micron (0, 0, 0) (edge1, 0, 0) (0, edge1, 0) (0, 0, edge1).
Proof. intros i j k. unfold micron, edge1. vext; field. Qed.
Theorem C20_small_cells : affineGrid micron (0, 0, 0) (edge1, 0, 0) (0, edge1, 0) (0, 0, edge1) /\ 0 < det3 (edge1, 0, 0) (0, edge1, 0) (0, 0, edge1) /\
  forall i j k, volume micron i j k = 100 * det3 (edge1, 0, 0) (0, edge1, 0) (0, 0, edge1).
Proof.
  assert (D : det3 (edge1, 0, 0) (0, edge1, 0) (0, 0, edge1) = / 1000000000000000000) by (unfold edge1; vcomp; field).
  split; [apply micron_affine|]. rewrite D. split; [lra|]. intros i j k. rewrite (C20_volume_clipped _ _ _ _ _ _ _ _ (affine_box _ _ _ _ _ i j k micron_affine)), D. rewrite Rmax_right; unfold tiny; lra.
Qed.
Theorem C22_small_cells : forall q c0 g i j k, (forall i j k, q i j k = linearField c0 g (cellCentre micron i j k)) -> dq2FD micron q i j k = vscale (1/100) g /\ dq4FD micron q i j k = vscale (1/100) g.
Proof.
  intros q c0 g i j k Hq. destruct (C22_linear_scaled micron _ _ _ _ q c0 g i j k micron_affine Hq) as [E1 E2].
  assert (D : det3 (edge1, 0, 0) (0, edge1, 0) (0, 0, edge1) / Rmax (det3 (edge1, 0, 0) (0, edge1, 0) (0, 0, edge1)) tiny = 1/100).
  { assert (D : det3 (edge1, 0, 0) (0, edge1, 0) (0, 0, edge1) = / 1000000000000000000) by (unfold edge1; vcomp; field). rewrite D, Rmax_right by (unfold tiny; lra). unfold tiny. field. }
  rewrite D in E1, E2. auto.
Qed.

(** the cubic x^3 on the skewed grid of C22 along its first edge, whose third derivative is bounded *)
Example C156_nonvacuous : affineGrid exGrid (0,0,0) (2,0,-1) (1,3,0) (0,1,2) /\ tiny <= det3 (2,0,-1) (1,3,0) (0,1,2) /\ edgeAlong (2,0,-1) (1,0,-1/2) 2 /\
  derivatives 3 (S_Gradient.along (fun p => vx p ^ 3) (cellCentre exGrid 0 0 0) (1,0,-1/2)) (fun n t => match n with 0%nat => (3/2 + t) ^ 3 | 1%nat => 3 * (3/2 + t) ^ 2 | 2%nat => 6 * (3/2 + t) | _ => 6 end).
Proof.
  split; [apply C22_ex|]. split; [apply C22_ex|]. split; [split; [lra|vext; field]|]. split.
  - intros t. unfold S_Gradient.along. f_equal. unfold cellCentre, exGrid. rewrite ?plus_IZR. vcomp. field.
  - intros k Hk t. destruct k as [|[|[|k]]]; [| | |lia]; apply is_derive_Reals; auto_derive; auto; ring.
Qed.
Print Assumptions C156_fourth_order. Print Assumptions C22_linear_scaled.
