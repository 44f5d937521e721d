(** Properties C33-C36, C85, C86: shock switches, CFL number and time step, sponge, NaN detection, load figures. *)
From Coq Require Import Reals ZArith List Bool Lia Lra Permutation.
From Verif Require Import M_Topology S_Topology M_Halo S_Halo M_Grid M_Metrics S_Metrics M_Flux M_Control S_Control L_Vec L_Flux1 P_Metrics.
Import ListNotations.
Open Scope R_scope.

(** * C33 *)
Lemma ratio01 a b : 0 <= a -> 0 < b -> a <= b -> 0 <= a / b <= 1.
Proof.
  intros Ha Hb H. split; [apply Rmult_le_pos; [lra|left; now apply Rinv_0_lt_compat]|].
  apply Rmult_le_reg_r with b; [lra|]. unfold Rdiv. rewrite Rmult_assoc, Rinv_l by lra. lra.
Qed.
Lemma jameson01 pm p pp : 0 < pm -> 0 < p -> 0 < pp -> 0 <= jameson pm p pp <= 1.
Proof.
  intros. unfold jameson. rewrite (Rabs_pos_eq (pp + 2 * p + pm)) by lra. apply ratio01; [apply Rabs_pos|lra|].
  apply Rabs_le. lra.
Qed.
Lemma vanAlbada01 pm p pp : 0 <= vanAlbada pm p pp <= 1.
Proof.
  unfold vanAlbada. set (r := (p - pm + tiny) / (pp - p + tiny)). cbv zeta. clearbody r.
  pose proof (pow2_ge_0 r) as Q. replace (1 - (r + Rabs r) / (1 + r ^ 2)) with ((1 + r ^ 2 - (r + Rabs r)) / (1 + r ^ 2)) by (field; lra).
  apply ratio01; [|lra|].
  - destruct (Rle_dec 0 r) as [H|H]; [rewrite Rabs_pos_eq by lra|rewrite Rabs_left by lra; lra]. pose proof (pow2_ge_0 (r - 1)). lra.
  - destruct (Rle_dec 0 r) as [H|H]; [rewrite Rabs_pos_eq by lra|rewrite Rabs_left by lra]; lra.
Qed.
Lemma vanLeer01 pm p pp : 0 < pm -> 0 < p -> 0 < pp -> 0 <= vanLeer pm p pp <= 1.
Proof.
  intros. unfold vanLeer. cbv zeta. pose proof (Rabs_pos (pp - p)). pose proof (Rabs_pos (p - pm)).
  apply ratio01; [apply Rabs_pos|nra|].
  assert (A: Rabs (pp - 2 * p + pm) <= Rabs (pp - p) + Rabs (p - pm)).
  { replace (pp - 2 * p + pm) with ((pp - p) + - (p - pm)) by ring. eapply Rle_trans; [apply Rabs_triang|]. rewrite Rabs_Ropp. lra. }
  assert (B: Rabs (pp - 2 * p + pm) <= pp + 2 * p + pm) by (apply Rabs_le; lra). lra.
Qed.
(** every switch, every cell, every direction *)
Theorem C33_switch_in_unit_interval : forall s d ng q phi, In s [jameson; vanAlbada; vanLeer] ->
  (forall i j k, 0 < q i j k 0%Z) ->
  forall i j k l, interior d ng i j k -> (0 <= l <= 2)%Z -> 0 <= switchKernel s d ng q phi i j k l <= 1.
Proof.
  intros s d ng q phi Hs Hp i j k l (Hi & Hj & Hk) Hl. unfold switchKernel.
  replace (inCC d ng 3 i j k l) with true by (symmetry; unfold inCC; rewrite !andb_true_iff, !Z.leb_le, !Z.ltb_lt; lia).
  assert (G: forall a b c, 0 < a -> 0 < b -> 0 < c -> 0 <= s a b c <= 1).
  { intros. destruct Hs as [<-|[<-|[<-|[]]]]; [now apply jameson01|apply vanAlbada01|now apply vanLeer01]. }
  cbv zeta. destruct (l =? 0)%Z; [apply G; apply Hp|]. destruct (l =? 1)%Z; apply G; apply Hp.
Qed.
(** on a uniform pressure all switches are off, and they are also off on a field that is linear along the
    grid lines (no false shocks in smooth compressions); nothing outside the interior is written *)
Definition pressureAlong (q : array4) (i j k : Z) (l : Z) (m : Z) : R :=
  match l with 0%Z => q (i+m)%Z j k 0%Z | 1%Z => q i (j+m)%Z k 0%Z | _ => q i j (k+m)%Z 0%Z end.
Theorem C33_off_on_linear_fields : forall s d ng q phi i j k l, In s [jameson; vanAlbada; vanLeer] ->
  interior d ng i j k -> (0 <= l <= 2)%Z ->
  pressureAlong q i j k l 1 - pressureAlong q i j k l 0 = pressureAlong q i j k l 0 - pressureAlong q i j k l (-1) ->
  pressureAlong q i j k l 1 - pressureAlong q i j k l 0 <> - / 10 ^ 16 ->
  switchKernel s d ng q phi i j k l = 0.
Proof.
  intros s d ng q phi i j k l Hs (Hi & Hj & Hk) Hl Hlin Hne. unfold switchKernel.
  replace (inCC d ng 3 i j k l) with true by (symmetry; unfold inCC; rewrite !andb_true_iff, !Z.leb_le, !Z.ltb_lt; lia).
  assert (G: forall a b c, c - b = b - a -> c - b <> - / 10 ^ 16 -> s a b c = 0).
  { clear - Hs. intros a b c E N. destruct Hs as [<-|[<-|[<-|[]]]].
    - unfold jameson. replace (c - 2 * b + a) with 0 by lra. rewrite Rabs_R0. unfold Rdiv. apply Rmult_0_l.
    - unfold vanAlbada. rewrite E. cbv zeta. assert (T: b - a + tiny <> 0).
      { unfold tiny. intro X. apply N. replace (10 ^ 16) with 10000000000000000 by ring. lra. }
      replace ((b - a + tiny) / (b - a + tiny)) with 1 by (field; auto). rewrite Rabs_pos_eq by lra. field.
    - unfold vanLeer. replace (c - 2 * b + a) with 0 by lra. rewrite Rabs_R0. cbv zeta. unfold Rdiv at 1. apply Rmult_0_l. }
  cbv zeta. assert (l = 0 \/ l = 1 \/ l = 2)%Z as [->|[->| ->]] by lia; cbn [Z.eqb Pos.eqb]; apply G; unfold pressureAlong in *;
    replace (i + 0)%Z with i in * by lia; replace (j + 0)%Z with j in * by lia; replace (k + 0)%Z with k in * by lia; auto.
Qed.
Theorem C33_writes_interior_only : forall s d ng q phi i j k l, ~ (interior d ng i j k /\ (0 <= l <= 2)%Z) ->
  switchKernel s d ng q phi i j k l = phi i j k l.
Proof.
  intros. unfold switchKernel. destruct (inCC d ng 3 i j k l) eqn:E; auto. exfalso. apply H.
  unfold inCC in E. rewrite !andb_true_iff, !Z.leb_le, !Z.ltb_lt in E. unfold interior. lia.
Qed.
(** a pressure jump switches the sensors on (they are not constantly zero) *)
Theorem C33_detects_extrema : forall s pm p pp, In s [jameson; vanAlbada; vanLeer] -> 0 < pm -> 0 < p -> 0 < pp ->
  1 / 10 ^ 16 < p - pm -> 1 / 10 ^ 16 < p - pp -> 0 < s pm p pp.
Proof.
  intros s pm p pp Hs H0 H1 H2 HA HB. assert (HT: tiny = 1 / 10 ^ 16) by (unfold tiny; replace (10 ^ 16) with 10000000000000000 by ring; lra).
  rewrite <- HT in *. pose proof tiny_pos. destruct Hs as [<-|[<-|[<-|[]]]].
  - unfold jameson. apply Rdiv_lt_0_compat; apply Rabs_pos_lt; lra.
  - unfold vanAlbada. set (r := (p - pm + tiny) / (pp - p + tiny)). cbv zeta.
    assert (r < 0). { unfold r. replace ((p - pm + tiny) / (pp - p + tiny)) with (- ((p - pm + tiny) / (p - pp - tiny))) by (field; lra).
      assert (0 < (p - pm + tiny) / (p - pp - tiny)) by (apply Rdiv_lt_0_compat; lra). lra. }
    rewrite Rabs_left by lra. replace (r + - r) with 0 by ring. unfold Rdiv. rewrite Rmult_0_l. lra.
  - unfold vanLeer. cbv zeta. pose proof (Rabs_pos (pp - p)). pose proof (Rabs_pos (p - pm)). apply Rdiv_lt_0_compat; [apply Rabs_pos_lt; lra|nra].
Qed.
Example C33_nonvacuous : jameson 1 3 1 = 1/2 /\ vanLeer 1 1 1 = 0 /\ vanAlbada 2 5 1 = 1.
Proof.
  repeat split; unfold jameson, vanLeer, vanAlbada; cbv zeta.
  - rewrite (Rabs_left (1 - 2*3 + 1)), (Rabs_pos_eq (1 + 2*3 + 1)) by lra. field.
  - replace (1 - 2*1 + 1) with 0 by ring. rewrite Rabs_R0. unfold Rdiv at 1. apply Rmult_0_l.
  - pose proof tiny_pos. assert (tiny < 1) by (unfold tiny; apply Rmult_lt_reg_l with 10000000000000000; [lra|]; rewrite Rinv_r; lra).
    set (r := (5 - 2 + tiny) / (1 - 5 + tiny)). assert (r < 0).
    { unfold r. replace ((5 - 2 + tiny) / (1 - 5 + tiny)) with (- ((5 - 2 + tiny) / (4 - tiny))) by (field; lra).
      assert (0 < (5 - 2 + tiny) / (4 - tiny)) by (apply Rdiv_lt_0_compat; lra). lra. }
    rewrite Rabs_left by lra. replace (r + - r) with 0 by ring. unfold Rdiv. rewrite Rmult_0_l. lra.
Qed.
Print Assumptions C33_switch_in_unit_interval.

(** * C35 *)
Lemma terms_used b i j k a : active b a -> snd (cflTerms b (i, j, k) a) = usedRadius b a i j k.
Proof.
  intros Ha. unfold active in Ha. unfold usedRadius, componentSpeed, width, norm, dot, soundSpeed, cellVel, meanN.
  assert (M: cflMult (size (cb_d b) a) = 1) by (unfold cflMult; destruct (Z.eqb_spec (size (cb_d b) a) 2); [contradiction|reflexivity]).
  destruct a; cbn [cflTerms size centreOf normalOf nextOf snd fst] in *; rewrite M, Rmult_1_l; unfold cflU, dist3, vsub, vadd, vscale, vx, vy, vz; cbn [fst snd];
    (apply f_equal2; [f_equal; f_equal; ring|f_equal; f_equal; ring]).
Qed.
Lemma terms_inactive b c a : ~ active b a -> snd (cflTerms b c a) = 0.
Proof.
  intros Ha. unfold active in Ha. assert (E: size (cb_d b) a = 2%Z) by (destruct (Z.eq_dec (size (cb_d b) a) 2); [auto|tauto]).
  assert (M: cflMult (size (cb_d b) a) = 0) by (unfold cflMult; now rewrite E).
  destruct c as [[i j] k], a; cbn [cflTerms size snd] in *; rewrite M, Rmult_0_l; unfold Rdiv; apply Rmult_0_l.
Qed.
Lemma reduce_upper b t c a : In c (leaves t) -> snd (cflTerms b c a) <= snd (reduceCFL b t).
Proof.
  induction t as [|t IH x|x IHx y IHy]; intros H; [destruct H| |]; cbn [leaves reduceCFL] in *.
  - set (r := reduceCFL b t) in *. unfold max3. cbn [snd].
    set (A := snd r) in *. set (B := snd (cflTerms b x AI)). set (C := snd (cflTerms b x AJ)). set (D := snd (cflTerms b x AK)).
    pose proof (Rmax_l A B). pose proof (Rmax_r A B). pose proof (Rmax_l (Rmax A B) C). pose proof (Rmax_r (Rmax A B) C).
    pose proof (Rmax_l (Rmax (Rmax A B) C) D). pose proof (Rmax_r (Rmax (Rmax A B) C) D).
    destruct H as [<-|H]; [destruct a; fold B C D; lra|specialize (IH H); lra].
  - unfold max3. cbn [snd]. apply in_app_or in H as [H|H]; [eapply Rle_trans; [apply IHx; auto|apply Rmax_l]|eapply Rle_trans; [apply IHy; auto|apply Rmax_r]].
Qed.
Lemma Rmax_or a b : Rmax a b = a \/ Rmax a b = b. Proof. unfold Rmax. destruct Rle_dec; auto. Qed.
Lemma reduce_attained b t : snd (reduceCFL b t) = lowest \/ exists c a, In c (leaves t) /\ snd (reduceCFL b t) = snd (cflTerms b c a).
Proof.
  induction t as [|t IH x|x IHx y IHy]; cbn [leaves reduceCFL]; [now left| |].
  - unfold max3; cbn [snd].
    destruct (Rmax_or (Rmax (Rmax (snd (reduceCFL b t)) (snd (cflTerms b x AI))) (snd (cflTerms b x AJ))) (snd (cflTerms b x AK))) as [-> | ->];
      [|right; exists x, AK; split; [now left|reflexivity]].
    destruct (Rmax_or (Rmax (snd (reduceCFL b t)) (snd (cflTerms b x AI))) (snd (cflTerms b x AJ))) as [-> | ->];
      [|right; exists x, AJ; split; [now left|reflexivity]].
    destruct (Rmax_or (snd (reduceCFL b t)) (snd (cflTerms b x AI))) as [-> | ->];
      [|right; exists x, AI; split; [now left|reflexivity]].
    destruct IH as [IH|(c & a & H & E)]; [now left|right; exists c, a; split; [now right|auto]].
  - unfold max3; cbn [snd]. unfold Rmax. destruct Rle_dec.
    + destruct IHy as [E|(c & a & H & E)]; [now left|right; exists c, a; split; [apply in_or_app; auto|auto]].
    + destruct IHx as [E|(c & a & H & E)]; [now left|right; exists c, a; split; [apply in_or_app; auto|auto]].
Qed.
Lemma lowest_neg : lowest < 0.
Proof.
  unfold lowest. assert (0 < (2 - / 2 ^ 52) * 2 ^ 1023); [|lra]. apply Rmult_lt_0_compat; [|apply pow_lt; lra].
  assert (/ 2 ^ 52 <= / 1); [|rewrite Rinv_1 in *; lra]. apply Rinv_le_contravar; [lra|]. apply pow_R1_Rle. lra.
Qed.
Lemma loop_ge mb acc : snd acc <= snd (CFLloop mb acc).
Proof. revert acc. induction mb as [|[b t] r IH]; intros acc; cbn [CFLloop]; [lra|]. eapply Rle_trans; [|apply IH]. cbn [snd]. apply Rmax_r. Qed.
Lemma loop_upper mb : forall acc b t, In (b, t) mb -> snd (reduceCFL b t) <= snd (CFLloop mb acc).
Proof.
  induction mb as [|[b' t'] r IH]; intros acc b t H; [destruct H|]. cbn [CFLloop]. destruct H as [[= -> ->]|H].
  - eapply Rle_trans; [|apply loop_ge]. cbn [snd]. apply Rmax_l.
  - eapply IH; eauto.
Qed.
Lemma loop_attained mb : forall acc, snd (CFLloop mb acc) = snd acc \/ exists b t, In (b, t) mb /\ snd (CFLloop mb acc) = snd (reduceCFL b t).
Proof.
  induction mb as [|[b t] r IH]; intros acc; cbn [CFLloop]; [now left|].
  match goal with |- context [CFLloop r ?x] => set (acc' := x) end.
  destruct (IH acc') as [E|(b' & t' & H & E)]; [|right; exists b', t'; split; [now right|auto]].
  rewrite E. unfold acc'. cbn [snd]. unfold Rmax. destruct Rle_dec; [now left|right; exists b, t; split; [now left|reflexivity]].
Qed.
(** The third number CFLmax returns is, for every reduction order, the maximum of the radius the code uses over
    all interior cells of all blocks and all directions more than one cell thick (0 if there are none). *)
Theorem C35_max_attained : forall mb, scheduled mb ->
  let r := snd (CFLmax mb) in
  (forall b t, In (b, t) mb -> forall a i j k, active b a -> interior (cb_d b) (cb_ng b) i j k -> usedRadius b a i j k <= r) /\
  (r = 0 \/ exists b t, In (b, t) mb /\ exists a i j k, active b a /\ interior (cb_d b) (cb_ng b) i j k /\ r = usedRadius b a i j k) /\
  0 <= r.
Proof.
  intros mb HS r. split; [|split].
  - intros b t Hb a i j k Ha Hc. rewrite <- terms_used by auto. eapply Rle_trans; [apply reduce_upper with (t := t); apply (HS b t Hb); auto|].
    now apply loop_upper.
  - destruct (loop_attained mb (0, 0, 0)) as [E|(b & t & Hb & E)]; [left; exact E|]. change (snd (CFLloop mb (0, 0, 0))) with r in E.
    assert (R0: 0 <= r) by (exact (loop_ge mb (0, 0, 0))).
    destruct (reduce_attained b t) as [E2|([[i j] k] & a & Hc & E2)]; [pose proof lowest_neg; exfalso; lra|].
    destruct (Z.eq_dec (size (cb_d b) a) 2) as [Hz|Hz].
    + left. rewrite E, E2. apply terms_inactive. unfold active. tauto.
    + right. exists b, t. split; [auto|]. exists a, i, j, k. split; [exact Hz|]. split; [apply (HS b t Hb); auto|].
      rewrite E, E2. now apply terms_used.
  - exact (loop_ge mb (0, 0, 0)).
Qed.

(** Cauchy-Schwarz: the true normal speed is at most sqrt 3 times the speed the code uses *)
Lemma three_bound x y z : Rabs (x + y + z) <= sqrt 3 * sqrt (x * x + y * y + z * z).
Proof.
  rewrite <- sqrt_mult by nra. rewrite <- sqrt_Rsqr_abs. apply sqrt_le_1_alt. unfold Rsqr.
  pose proof (Rle_0_sqr (x - y)). pose proof (Rle_0_sqr (y - z)). pose proof (Rle_0_sqr (x - z)). unfold Rsqr in *. nra.
Qed.
Lemma sqrt3_ge1 : 1 <= sqrt 3. Proof. rewrite <- sqrt_1 at 1. apply sqrt_le_1_alt. lra. Qed.
Lemma spectral_used b a i j k : 0 < width b a i j k -> 0 <= soundSpeed b i j k -> spectral b a i j k <= sqrt 3 * usedRadius b a i j k.
Proof.
  intros Hw Hc. unfold spectral, usedRadius. unfold Rdiv. rewrite <- Rmult_assoc. apply Rmult_le_compat_r; [left; now apply Rinv_0_lt_compat|].
  unfold componentSpeed, dot3. set (n := meanN b a i j k). set (u := cellVel b i j k). cbv zeta. unfold norm, dot, vx, vy, vz; cbn [fst snd].
  set (x := fst (fst n) * fst (fst u)). set (y := snd (fst n) * snd (fst u)). set (z := snd n * snd u).
  pose proof (three_bound x y z) as T. replace (fst (fst u) * fst (fst n) + snd (fst u) * snd (fst n) + snd u * snd n) with (x + y + z) by (unfold x, y, z; ring).
  pose proof sqrt3_ge1. nra.
Qed.
(** Hence the reported number bounds the spectral radius of every cell up to the factor sqrt 3... *)
Theorem C35_spectral_partial : forall mb, scheduled mb ->
  forall b t, In (b, t) mb -> forall a i j k, active b a -> interior (cb_d b) (cb_ng b) i j k ->
  0 < width b a i j k -> 0 <= soundSpeed b i j k -> spectral b a i j k <= sqrt 3 * snd (CFLmax mb).
Proof.
  intros mb HS b t Hb a i j k Ha Hc Hw Hs. eapply Rle_trans; [now apply spectral_used|].
  apply Rmult_le_compat_l; [apply sqrt_pos|]. destruct (C35_max_attained mb HS) as [U _]. eapply U; eauto.
Qed.
(** and exactly on grids aligned with the coordinates. *)
Theorem C35_spectral_aligned : forall mb, scheduled mb ->
  forall b t, In (b, t) mb -> forall a i j k, active b a -> interior (cb_d b) (cb_ng b) i j k -> 0 < width b a i j k ->
  (exists s, meanN b a i j k = (s, 0, 0) \/ meanN b a i j k = (0, s, 0) \/ meanN b a i j k = (0, 0, s)) ->
  spectral b a i j k <= snd (CFLmax mb).
Proof.
  intros mb HS b t Hb a i j k Ha Hc Hw (s & Hn). eapply Rle_trans; [|destruct (C35_max_attained mb HS) as [U _]; eapply U; eauto].
  unfold spectral, usedRadius. apply Rmult_le_compat_r; [left; now apply Rinv_0_lt_compat|]. apply Rplus_le_compat_r.
  unfold componentSpeed, dot3, norm, dot, cellVel. destruct Hn as [-> | [-> | ->]]; unfold vx, vy, vz; cbn [fst snd];
   rewrite <- sqrt_Rsqr_abs; apply sqrt_le_1_alt; unfold Rsqr; nra.
Qed.

(** One interior cell, uniform flow along a diagonal face normal. *)
Definition diagN : vec := (3/5, 4/5, 0).
Definition exCB : cblock := mkCB (mkDims 3 2 2) 1
  (fun _ _ _ l => if (l =? 1)%Z then 3 else if (l =? 2)%Z then 4 else 0) (fun _ _ _ _ => 1)
  (fun i j k => (3/5 * IZR i, 4/5 * IZR i, 0)) (fun i j k => (0, IZR j, 0)) (fun i j k => (0, 0, IZR k))
  (fun _ _ _ => diagN) (fun _ _ _ => (-4/5, 3/5, 0)) (fun _ _ _ => (0, 0, 1)).
Definition exTree : rtree := RJoin (RCell RInit (1,1,1)%Z) (RCell RInit (2,1,1)%Z).
Lemma exSched : scheduled [(exCB, exTree)].
Proof. intros b t [[= <- <-]|[]] i j k. cbn [cb_d cb_ng exCB exTree leaves app In]. unfold interior; cbn [ni nj nk]. split.
 - intros [[= <- <- <-]|[[= <- <- <-]|[]]]; lia.
 - intros. assert (i = 1 \/ i = 2)%Z as [->| ->] by lia; assert (j = 1%Z) as -> by lia; assert (k = 1%Z) as -> by lia; auto.
Qed.
Lemma exWidth i : width exCB AI i 1 1 = 1.
Proof. unfold width, norm, dot, centreOf, nextOf, exCB; cbn [cb_ic]. unfold vsub, vx, vy, vz; cbn [fst snd]. rewrite plus_IZR.
 match goal with |- sqrt ?x = 1 => replace x with 1 by field end. apply sqrt_1. Qed.
Lemma exUsed i : usedRadius exCB AI i 1 1 = sqrt (337/25) + 1.
Proof.
  unfold usedRadius. rewrite exWidth. unfold componentSpeed, norm, dot, meanN, cellVel, soundSpeed, normalOf, nextOf, exCB, diagN; cbn [cb_in cb_q cb_qh Z.eqb Pos.eqb].
  unfold vscale, vadd, vx, vy, vz; cbn [fst snd]. replace (1/2 * (3/5 + 3/5) * 3 * (1/2 * (3/5 + 3/5) * 3) + 1/2 * (4/5+4/5) * 4 * (1/2 * (4/5+4/5) * 4) + 1/2 * (0+0) * 0 * (1/2 * (0+0) * 0)) with (337/25) by field. field.
Qed.
Theorem C35_spectral_radius_refuted : exists mb, scheduled mb /\ exists b t a i j k, In (b, t) mb /\ active b a /\
  interior (cb_d b) (cb_ng b) i j k /\ 0 < width b a i j k /\ 0 < soundSpeed b i j k /\ norm (meanN b a i j k) = 1 /\
  snd (CFLmax mb) < spectral b a i j k.
Proof.
  exists [(exCB, exTree)]. split; [apply exSched|]. exists exCB, exTree, AI, 1%Z, 1%Z, 1%Z.
  split; [now left|]. split; [unfold active; cbn; lia|]. split; [unfold interior; cbn; lia|]. rewrite exWidth. split; [lra|]. split; [unfold soundSpeed, exCB; cbn; lra|].
  split. { unfold norm, dot, meanN, normalOf, nextOf, exCB, diagN; cbn [cb_in]. unfold vscale, vadd, vx, vy, vz; cbn [fst snd].
   match goal with |- sqrt ?x = 1 => replace x with 1 by field end. apply sqrt_1. }
  assert (S: spectral exCB AI 1 1 1 = 6).
  { unfold spectral. rewrite exWidth. unfold dot3, meanN, cellVel, soundSpeed, normalOf, nextOf, exCB, diagN; cbn [cb_in cb_q cb_qh Z.eqb Pos.eqb].
    unfold vscale, vadd, vx, vy, vz; cbn [fst snd]. rewrite Rabs_pos_eq by lra. field. }
  rewrite S. assert (B: sqrt (337/25) < 5). { rewrite <- (sqrt_square 5) by lra. apply sqrt_lt_1_alt. lra. }
  destruct (C35_max_attained _ exSched) as (_ & [E|(b & t & [[= <- <-]|[]] & a & i & j & k & Ha & Hi & E)] & _); rewrite E; [lra|].
  unfold interior in Hi; cbn [exCB cb_d cb_ng ni nj nk] in Hi. assert (j = 1%Z) as -> by lia. assert (k = 1%Z) as -> by lia.
  destruct a; [|exfalso; apply Ha; reflexivity|exfalso; apply Ha; reflexivity]. rewrite exUsed. lra.
Qed.
Print Assumptions C35_spectral_radius_refuted.

(** * C34 *)
Lemma fold_max3_ge l : forall x, snd x <= snd (fold_left max3 l x).
Proof. induction l as [|y r IH]; intros x; cbn [fold_left]; [lra|]. eapply Rle_trans; [|apply IH]. unfold max3. cbn [snd]. apply Rmax_l. Qed.
Lemma fold_max3_in l : forall x y, In y l -> snd y <= snd (fold_left max3 l x).
Proof. induction l as [|z r IH]; intros x y H; [destruct H|]. cbn [fold_left]. destruct H as [->|H]; [|now apply IH].
  eapply Rle_trans; [|apply fold_max3_ge]. unfold max3. cbn [snd]. apply Rmax_r. Qed.
Lemma allreduce_in l y : In y l -> snd y <= snd (allreduceMax l).
Proof. destruct l as [|x r]; intros H; [destruct H|]. unfold allreduceMax. destruct H as [->|H]; [apply fold_max3_ge|now apply fold_max3_in]. Qed.
(** Whatever the partition over ranks and the reduction order: positive limits in, the step is positive, at most the
    configured maximum, and times every cell's radius at most the configured CFL number; ranks with equal
    configurations compute the same step. *)
Theorem C34_step_limits : forall cfg ranks, variableTimeStep cfg = true -> 0 < maxCFL cfg -> 0 < maxDt cfg ->
  (forall mb, In mb ranks -> scheduled mb) ->
  let '(dt, (cflA, cflC, cflR)) := getDtMaxCFL cfg ranks in
  0 < dt <= maxDt cfg /\ dt * cflR <= maxCFL cfg /\
  (forall mb b t, In mb ranks -> In (b, t) mb -> forall a i j k, active b a -> interior (cb_d b) (cb_ng b) i j k ->
     usedRadius b a i j k <= cflR /\ dt * usedRadius b a i j k <= maxCFL cfg).
Proof.
  intros cfg ranks HV HC HD HS. unfold getDtMaxCFL. rewrite HV. cbv zeta.
  set (cfl := allreduceMax (map CFLmax ranks)).
  assert (U: forall mb b t, In mb ranks -> In (b, t) mb -> forall a i j k, active b a -> interior (cb_d b) (cb_ng b) i j k -> usedRadius b a i j k <= snd cfl).
  { intros mb b t Hm Hb a i j k Ha Hi. destruct (C35_max_attained mb (HS mb Hm)) as [V _]. eapply Rle_trans; [eapply V; eauto|].
    apply allreduce_in. now apply in_map. }
  assert (P: 0 <= snd cfl).
  { unfold cfl. destruct ranks as [|mb r]; [cbn; lra|]. eapply Rle_trans; [|apply allreduce_in; left; reflexivity]. apply (loop_ge mb (0,0,0)). }
  destruct cfl as [[cA cC] cR]. cbn [snd] in *.
  assert (D: let dt := if Req_EM_T cR 0 then maxDt cfg else Rmin (maxCFL cfg / cR) (maxDt cfg) in 0 < dt <= maxDt cfg /\ dt * cR <= maxCFL cfg).
  { cbv zeta. destruct (Req_EM_T cR 0) as [->|N]; [lra|]. assert (0 < cR) by lra. assert (0 < maxCFL cfg / cR) by (apply Rdiv_lt_0_compat; lra).
    split; [split; [now apply Rmin_glb_lt|apply Rmin_r]|]. eapply Rle_trans; [apply Rmult_le_compat_r; [lra|apply Rmin_l]|]. right. field. lra. }
  cbv zeta in D. destruct D as ((D1 & D2) & D3). split; [split; auto|]. split; [auto|].
  intros mb b t Hm Hb a i j k Ha Hi. specialize (U mb b t Hm Hb a i j k Ha Hi). split; [auto|]. nra.
Qed.
(** the step is the largest one allowed: one of the two limits is met exactly *)
Theorem C34_step_is_largest : forall cfg ranks, variableTimeStep cfg = true ->
  let '(dt, (_, _, cflR)) := getDtMaxCFL cfg ranks in dt = maxDt cfg \/ (cflR <> 0 /\ dt * cflR = maxCFL cfg).
Proof.
  intros cfg ranks HV. unfold getDtMaxCFL. rewrite HV. cbv zeta. destruct (allreduceMax (map CFLmax ranks)) as [[cA cC] cR]. cbn [snd].
  destruct (Req_EM_T cR 0); [now left|]. unfold Rmin. destruct Rle_dec; [right|left; auto]. split; [auto|]. field. auto.
Qed.
Theorem C34_fixed_step : forall cfg ranks, variableTimeStep cfg = false -> fst (getDtMaxCFL cfg ranks) = cfgDt cfg.
Proof. intros cfg ranks H. unfold getDtMaxCFL. now rewrite H. Qed.
Example C34_nonvacuous : (forall mb, In mb [[(exCB, exTree)]; []] -> scheduled mb) /\
  0 < snd (snd (getDtMaxCFL (mkTC true 1 1 0) [[(exCB, exTree)]; []])).
Proof.
  split. { intros mb [<-|[<-|[]]]; [apply exSched|intros ? ? []]. }
  unfold getDtMaxCFL. cbn [snd fst map]. cbv zeta.
  eapply Rlt_le_trans; [|apply allreduce_in; left; reflexivity]. destruct (C35_max_attained _ exSched) as (U & _).
  eapply Rlt_le_trans; [|apply (U exCB exTree (or_introl eq_refl) AI 1%Z 1%Z 1%Z); [unfold active; cbn; lia|unfold interior; cbn; lia]].
  rewrite exUsed. pose proof (sqrt_pos (337/25)). lra.
Qed.
Print Assumptions C34_step_limits.

(** * C36 *)
Definition spongeLength (o e : vec) : R := norm (vsub e o).
(** how far the point is along the sponge, as a fraction of its length *)
Definition spongeFraction (o e x : vec) : R := dot3 (vsub x o) (vsub e o) / (spongeLength o e * spongeLength o e).
Lemma factor_formula o e mult x : o <> e -> spongeFactor o e mult x = 1 + Rmin (Rmax 0 (spongeFraction o e x * (mult - 1))) mult.
Proof.
  intros H. unfold spongeFactor. cbv zeta. f_equal. f_equal. f_equal. f_equal.
  unfold spongeFraction, spongeLength, norm, dot, dot3, vsub. cbn [vx vy vz fst snd]. unfold vx, vy, vz; cbn [fst snd].
  set (a := fst (fst e) - fst (fst o)). set (b := snd (fst e) - snd (fst o)). set (c := snd e - snd o).
  replace (a ^ 2 + b ^ 2 + c ^ 2) with (a * a + b * b + c * c) by ring.
  assert (N: sqrt (a * a + b * b + c * c) <> 0).
  { intros E. apply sqrt_eq_0 in E; [|nra]. apply H. destruct o as [[o1 o2] o3], e as [[e1 e2] e3]. unfold a, b, c in E; cbn [fst snd] in E. 
    pose proof (Rle_0_sqr (e1 - o1)). pose proof (Rle_0_sqr (e2 - o2)). pose proof (Rle_0_sqr (e3 - o3)). unfold Rsqr in *.
    assert (e1 - o1 = 0) by (apply Rsqr_0_uniq; unfold Rsqr; lra). assert (e2 - o2 = 0) by (apply Rsqr_0_uniq; unfold Rsqr; lra). assert (e3 - o3 = 0) by (apply Rsqr_0_uniq; unfold Rsqr; lra).
    repeat (apply f_equal2; try lra). }
  field. auto.
Qed.
(** Upstream of the sponge the viscosity is unchanged; inside it grows linearly from 1 to the multiplier. *)
Theorem C36_sponge_ramp_partial : forall o e mult x, o <> e -> 1 <= mult ->
  (spongeFraction o e x <= 0 -> spongeFactor o e mult x = 1) /\
  (0 <= spongeFraction o e x <= 1 -> spongeFactor o e mult x = 1 + spongeFraction o e x * (mult - 1) /\ 1 <= spongeFactor o e mult x <= mult) /\
  1 <= spongeFactor o e mult x <= 1 + mult.
Proof.
  intros o e mult x H Hm. rewrite factor_formula by auto. set (f := spongeFraction o e x). clearbody f. split; [|split].
  - intros. rewrite (Rmax_left 0) by nra. rewrite Rmin_left; lra.
  - intros. rewrite (Rmax_right 0) by nra. rewrite Rmin_left by nra. nra.
  - pose proof (Rmax_l 0 (f * (mult - 1))). pose proof (Rmin_r (Rmax 0 (f * (mult - 1))) mult). split; [|lra].
    assert (0 <= Rmin (Rmax 0 (f * (mult - 1))) mult) by (apply Rmin_glb; lra). lra.
Qed.
(** Beyond the end of the sponge the factor keeps growing past the configured multiplier (cap at 1 + multiplier). *)
Theorem C36_beyond_end_refuted : exists o e mult x, o <> e /\ 1 <= mult /\ 1 < spongeFraction o e x /\ mult < spongeFactor o e mult x.
Proof.
  exists (0,0,0), (1,0,0), 2, (3,0,0). assert (N: ((0,0,0) : vec) <> (1,0,0)) by (intros [=]; lra).
  assert (F: spongeFraction (0,0,0) (1,0,0) (3,0,0) = 3).
  { unfold spongeFraction, spongeLength, norm, dot, dot3, vsub, vx, vy, vz; cbn [fst snd]. match goal with |- context [sqrt ?y] => replace y with 1 by ring end. rewrite sqrt_1. field. }
  split; [exact N|]. split; [lra|]. rewrite factor_formula, F by exact N. split; [lra|]. rewrite Rmax_right, Rmin_right by lra. lra.
Qed.
Theorem C36_only_viscosity : forall d ng o e mult xc qt i j k l, l <> 0%Z -> viscousSponge d ng o e mult xc qt i j k l = qt i j k l.
Proof. intros. unfold viscousSponge. destruct (Z.eqb_spec l 0); [contradiction|]. now rewrite andb_false_r. Qed.
(** every cell a viscous flux reads (interior and first halo layer) is scaled, once *)
Theorem C36_all_flux_cells : forall d ng o e mult xc qt i j k,
  (ng - 1 <= i < ni d + ng)%Z -> (ng - 1 <= j < nj d + ng)%Z -> (ng - 1 <= k < nk d + ng)%Z ->
  viscousSponge d ng o e mult xc qt i j k 0%Z = qt i j k 0%Z * spongeFactor o e mult (xc i j k).
Proof. intros. unfold viscousSponge. match goal with |- (if ?c then _ else _) = _ => replace c with true by (symmetry; rewrite !andb_true_iff, !Z.leb_le, !Z.ltb_lt, Z.eqb_eq; lia) end. reflexivity. Qed.
Example C36_nonvacuous : spongeFactor (0,0,0) (2,0,0) 5 (1,7,0) = 3.
Proof.
  rewrite factor_formula by (intros [=]; lra).
  assert (F: spongeFraction (0,0,0) (2,0,0) (1,7,0) = 1/2).
  { unfold spongeFraction, spongeLength, norm, dot, dot3, vsub, vx, vy, vz; cbn [fst snd]. replace ((2 - 0) * (2 - 0) + (0 - 0) * (0 - 0) + (0 - 0) * (0 - 0)) with (2 * 2) by ring. rewrite sqrt_square by lra. field. }
  rewrite F, Rmax_right, Rmin_left by lra. lra.
Qed.

(** * C85: NaN detection *)
Lemma reduceFin_le Q t i j k l : In (i,j,k,l) (nleaves t) -> (reduceFin Q t <= isfinite (Q i j k l))%Z.
Proof. induction t as [|t IH [[[a b] c] e]|x IHx y IHy]; cbn [nleaves reduceFin]; intros H; [destruct H| |].
 - destruct H as [[= <- <- <- <-]|H]; [lia|]. specialize (IH H). lia.
 - apply in_app_or in H as [H|H]; [specialize (IHx H)|specialize (IHy H)]; lia. Qed.
Lemma reduceFin_pos Q t : (forall i j k l, In (i,j,k,l) (nleaves t) -> isfinite (Q i j k l) = 1%Z) -> (0 < reduceFin Q t)%Z.
Proof. induction t as [|t IH [[[a b] c] e]|x IHx y IHy]; cbn [nleaves reduceFin]; intros H; [lia| |].
 - rewrite (H a b c e) by now left. assert (0 < reduceFin Q t)%Z by (apply IH; intros; apply H; now right). lia.
 - assert (0 < reduceFin Q x)%Z by (apply IHx; intros; apply H; apply in_or_app; auto). assert (0 < reduceFin Q y)%Z by (apply IHy; intros; apply H; apply in_or_app; auto). lia. Qed.
Lemma reduceFin_ge Q t : (0 <= reduceFin Q t)%Z.
Proof. induction t as [|t IH [[[a b] c] e]|x IHx y IHy]; cbn [reduceFin]; [lia| |lia]. unfold isfinite. destruct (Q a b c e); lia. Qed.
Lemma isfinite_iff x : isfinite x = 1%Z <-> finite x.
Proof. unfold finite. destruct x; cbn; split; intros H; try discriminate; eauto; destruct H; discriminate. Qed.
Lemma checkNan_spec mb dom : nscheduled mb dom ->
  (checkNan mb = 0%Z /\ (forall Q t, In (Q, t) mb -> forall i j k l, dom Q i j k l -> finite (Q i j k l))) \/
  (checkNan mb = 1%Z /\ exists Q t, In (Q, t) mb /\ exists i j k l, dom Q i j k l /\ ~ finite (Q i j k l)).
Proof.
  induction mb as [|[Q t] r IH]; intros HS; cbn [checkNan]; [left; split; [auto|intros ? ? []]|].
  pose proof (reduceFin_ge Q t) as G.
  destruct (Z.eqb_spec (reduceFin Q t) 0) as [E|E].
  - right. split; [auto|]. exists Q, t. split; [now left|].
    assert (D: (exists i j k l, In (i,j,k,l) (nleaves t) /\ isfinite (Q i j k l) <> 1%Z) \/ (forall i j k l, In (i,j,k,l) (nleaves t) -> isfinite (Q i j k l) = 1%Z)).
    { clear. induction (nleaves t) as [|[[[a b] c] e] r IH]; [right; intros ? ? ? ? []|].
      destruct (Z.eq_dec (isfinite (Q a b c e)) 1) as [F|F]; [|left; exists a, b, c, e; split; [now left|auto]].
      destruct IH as [(i & j & k & l & H & N)|IH]; [left; exists i, j, k, l; split; [now right|auto]|].
      right. intros i j k l [[= <- <- <- <-]|H]; auto. }
    destruct D as [(i & j & k & l & H & N)|D]; [|pose proof (reduceFin_pos Q t D); lia].
    exists i, j, k, l. split; [apply (HS Q t (or_introl eq_refl)); auto|]. rewrite <- isfinite_iff. auto.
  - destruct IH as [(E2 & F)|(E2 & Q' & t' & H & R')].
    + intros Q' t' H. apply HS. now right.
    + left. split; [auto|]. intros Q' t' [[= <- <-]|H] i j k l Hd; [|eapply F; eauto].
      apply (HS Q t (or_introl eq_refl)) in Hd. pose proof (reduceFin_le Q t i j k l Hd). rewrite <- isfinite_iff. unfold isfinite in *. destruct (Q i j k l); auto; lia.
    + right. split; [auto|]. exists Q', t'. split; [now right|auto].
Qed.
(** The number every rank gets is positive iff some stored entry on some rank is NaN or infinite, for every
    reduction order and partition over ranks. *)
Theorem C85_nan_detected_everywhere : forall ranks dom, (forall mb, In mb ranks -> nscheduled mb dom) ->
  (0 < checkForNan ranks)%Z <->
  exists mb Q t i j k l, In mb ranks /\ In (Q, t) mb /\ dom Q i j k l /\ ~ finite (Q i j k l).
Proof.
  intros ranks dom. unfold checkForNan. induction ranks as [|mb r IH]; intros HS; cbn [map fold_right].
  - split; [lia|]. intros (mb & _ & _ & _ & _ & _ & _ & [] & _).
  - assert (Hr: forall mb0, In mb0 r -> nscheduled mb0 dom) by (intros; apply HS; now right). specialize (IH Hr).
    assert (NN: (0 <= fold_right Z.add 0 (map checkNan r))%Z).
    { clear - Hr. induction r as [|m r IH]; cbn [map fold_right]; [lia|]. assert (0 <= checkNan m)%Z by (destruct (checkNan_spec m dom (Hr m (or_introl eq_refl))) as [(E & _)|(E & _)]; lia).
      assert (0 <= fold_right Z.add 0 (map checkNan r))%Z by (apply IH; intros; apply Hr; now right). lia. }
    destruct (checkNan_spec mb dom (HS mb (or_introl eq_refl))) as [(E & F)|(E & Q & t & H & i & j & k & l & Hd & N)]; rewrite E.
    + rewrite Z.add_0_l, IH. split.
      * intros (m & Q & t & i & j & k & l & H & R). exists m, Q, t, i, j, k, l. split; [now right|auto].
      * intros (m & Q & t & i & j & k & l & [<-|H] & H2 & H3 & H4); [exfalso; apply H4; eapply F; eauto|]. exists m, Q, t, i, j, k, l. auto.
    + split; [|lia]. intros _. exists mb, Q, t, i, j, k, l. split; [now left|auto].
Qed.
Example C85_nonvacuous :
  let Q : fblock := fun i _ _ _ => if (i =? 2)%Z then NaN else Fin 1 in
  let t := NJoin (NCell NInit (1,1,1,0)%Z) (NCell NInit (2,1,1,0)%Z) in checkForNan [[]; [(Q, t)]] = 1%Z.
Proof. reflexivity. Qed.
Print Assumptions C85_nan_detected_everywhere.

(** * C86: cell counts and load efficiency *)
Lemma myCells_sum mb : myCells mb = fold_right Z.add 0%Z (map blockCells mb).
Proof. unfold myCells. assert (G: forall a, fold_left (fun x d => (x + blockCells d)%Z) mb a = (a + fold_right Z.add 0 (map blockCells mb))%Z).
 { induction mb as [|d r IH]; intros a; cbn [fold_left map fold_right]; [lia|]. rewrite IH. lia. } now rewrite G. Qed.
(** independent of how the blocks are spread over the ranks *)
Lemma numCells_concat ranks : getNumCells ranks = fold_right Z.add 0%Z (map blockCells (concat ranks)).
Proof. unfold getNumCells. induction ranks as [|mb r IH]; cbn [map fold_right concat]; auto. rewrite IH, myCells_sum, map_app.
  generalize (map blockCells (concat r)). induction (map blockCells mb) as [|x l IHl]; intros m; cbn [app fold_right]; [lia|]. rewrite <- IHl. lia. Qed.
Theorem C86_count_independent_of_partition : forall r1 r2, Permutation (concat r1) (concat r2) -> getNumCells r1 = getNumCells r2.
Proof. intros r1 r2 H. rewrite !numCells_concat. induction (Permutation_map blockCells H); cbn [fold_right]; lia. Qed.
Lemma argmax_spec xs : forall idx best i p m, argmaxFrom xs idx best i = (p, m) ->
  (best <= m)%Z /\ (forall x, In x xs -> (x <= m)%Z) /\ ((p, m) = (idx, best) \/ (i <= p < i + Z.of_nat (length xs))%Z /\ nth_error xs (Z.to_nat (p - i)) = Some m).
Proof.
  induction xs as [|x r IH]; intros idx best i p m E; cbn [argmaxFrom] in E.
  - injection E as <- <-. repeat split; [lia|intros ? []|now left].
  - cbn [length]. destruct (Z.ltb_spec best x); apply IH in E as (A & B & C); (split; [lia|split; [intros y [<-|H1]; [lia|auto]|]]).
    + right. destruct C as [[= -> ->]|(C & D)]; [split; [lia|now rewrite Z.sub_diag]|]. split; [lia|].
      replace (Z.to_nat (p - i)) with (S (Z.to_nat (p - (i + 1)))) by lia. exact D.
    + destruct C as [C|(C & D)]; [now left|right]. split; [lia|]. replace (Z.to_nat (p - i)) with (S (Z.to_nat (p - (i + 1)))) by lia. exact D.
Qed.
(** the efficiency never exceeds 100 %, is 100 % only for equal loads, and the processor named carries the largest load *)
Theorem C86_load_efficiency : forall ranks eff p, (forall mb d, In mb ranks -> In d mb -> (0 <= blockCells d)%Z) ->
  (0 < getNumCells ranks)%Z -> getLoadEfficiency ranks = Some (eff, p) ->
  0 < eff <= 100 /\ (exists mb, nth_error ranks (Z.to_nat p) = Some mb /\ forall mb', In mb' ranks -> (myCells mb' <= myCells mb)%Z) /\
  (eff = 100 <-> forall m1 m2, In m1 ranks -> In m2 ranks -> myCells m1 = myCells m2).
Proof.
  intros ranks eff p HP HN E. unfold getLoadEfficiency in E. destruct (map myCells ranks) as [|x r] eqn:EM; [discriminate|].
  destruct (argmaxFrom r 0 x 1) as [q m] eqn:EA. injection E as <- <-.
  destruct (argmax_spec _ _ _ _ _ _ EA) as (A & B & C).
  assert (MAX: forall y, In y (map myCells ranks) -> (y <= m)%Z) by (rewrite EM; intros y [<-|H]; auto).
  assert (AT: nth_error (map myCells ranks) (Z.to_nat q) = Some m /\ (0 <= q)%Z).
  { rewrite EM. destruct C as [[= -> ->]|(C & D)]; [split; [reflexivity|lia]|]. split; [|lia]. replace (Z.to_nat q) with (S (Z.to_nat (q - 1))) by lia. exact D. }
  destruct AT as [AT Hq].
  assert (LEN: length (map myCells ranks) = length ranks) by apply map_length.
  assert (L0: (0 < Z.of_nat (length ranks))%Z) by (rewrite <- LEN, EM; cbn [length]; lia).
  assert (SUM: forall l, (forall y, In y l -> (y <= m)%Z) -> (fold_right Z.add 0 l <= m * Z.of_nat (length l))%Z /\ (fold_right Z.add 0 l = m * Z.of_nat (length l) -> forall y, In y l -> y = m)%Z).
  { induction l as [|y l IH]; intros H; cbn [fold_right length]; [split; [lia|intros _ y []]|].
    destruct IH as [I1 I2]; [intros; apply H; now right|]. pose proof (H y (or_introl eq_refl)). rewrite Nat2Z.inj_succ. split; [lia|].
    intros Q z [<-|Hz]; [lia|apply I2; auto; lia]. }
  destruct (SUM _ MAX) as [S1 S2]. rewrite LEN in S1, S2. fold (getNumCells ranks) in S1, S2.
  assert (M0: (0 < m)%Z) by nia.
  set (n := Z.of_nat (length ranks)) in *. set (N := getNumCells ranks) in *.
  assert (Rm: 0 < IZR m) by (apply IZR_lt; lia). assert (Rn: 0 < IZR n) by (apply IZR_lt; lia). assert (RN: 0 < IZR N) by (apply IZR_lt; lia).
  assert (RS: IZR N <= IZR m * IZR n) by (rewrite <- mult_IZR; apply IZR_le; lia).
  replace (IZR N / IZR n / IZR m * 100) with (IZR N / (IZR m * IZR n) * 100) by (field; lra).
  assert (MN: 0 < IZR m * IZR n) by nra.
  assert (RAT: IZR N / (IZR m * IZR n) <= 1) by (apply ratio01; lra).
  assert (0 < IZR N / (IZR m * IZR n)) by (apply Rdiv_lt_0_compat; lra).
  split; [lra|]. split.
  - rewrite nth_error_map in AT. destruct (nth_error ranks (Z.to_nat q)) as [mb|] eqn:EN; [|discriminate]. injection AT as AT.
    exists mb. split; [auto|]. intros mb' H1. rewrite AT. apply MAX. now apply in_map.
  - assert (EQ: IZR N / (IZR m * IZR n) * 100 = 100 <-> N = (m * n)%Z).
    { split; intros Q.
      - apply eq_IZR. rewrite mult_IZR. assert (Q1: IZR N / (IZR m * IZR n) = 1) by lra. replace (IZR N) with (IZR N / (IZR m * IZR n) * (IZR m * IZR n)) by (field; lra). rewrite Q1. ring.
      - rewrite Q, mult_IZR. field; lra. }
    rewrite EQ. split.
    + intros Q m1 m2 H1 H2. rewrite (S2 Q (myCells m1)), (S2 Q (myCells m2)); auto; now apply in_map.
    + intros Q. assert (ALL: forall y, In y (map myCells ranks) -> y = m).
      { intros y Hy. apply in_map_iff in Hy as (m1 & <- & H1). apply nth_error_In in AT. apply in_map_iff in AT as (m2 & <- & H2). now apply Q. }
      unfold N, getNumCells, n. rewrite <- LEN. clear - ALL. revert ALL. induction (map myCells ranks) as [|y l IH]; intros; cbn [fold_right length]; [lia|].
      rewrite IH by (intros; apply ALL; now right). rewrite (ALL y (or_introl eq_refl)), Nat2Z.inj_succ. lia.
Qed.
Example C86_nonvacuous : getLoadEfficiency [[mkDims 3 3 3]; [mkDims 3 3 2; mkDims 3 2 2; mkDims 5 2 2]] = Some (IZR 18 / IZR 2 / IZR 10 * 100, 1%Z).
Proof. reflexivity. Qed.
Print Assumptions C86_load_efficiency.
