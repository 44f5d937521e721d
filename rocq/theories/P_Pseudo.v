(** C142, C143: the local pseudo-time step and the reference velocity of the preconditioner. *)
From Coq Require Import Reals ZArith List Bool Lia Lra Psatz.
From Verif Require Import M_Topology M_Halo M_Grid M_Metrics S_Metrics M_Flux M_Control S_Control P_Control M_Dual M_Pseudo S_Pseudo.
Import ListNotations.
Open Scope R_scope.

Definition axes := [AI; AJ; AK].
Lemma width_dual b i j k a : dualWidth b i j k a = width b a i j k.
Proof. unfold dualWidth, width, dist3, norm, dot, centreOf, nextOf, vsub. destruct a; unfold vx, vy, vz; cbn [fst snd]; f_equal; ring. Qed.
Lemma speed_dual b i j k a : dualSpeed b i j k a = componentSpeed b a i j k.
Proof. unfold dualSpeed, componentSpeed, cflU, norm, dot, meanN, cellVel, normalOf, nextOf, vscale, vadd. destruct a; unfold vx, vy, vz; cbn [fst snd]; f_equal; ring. Qed.
Lemma flat_iff b a : (size (cb_d b) a =? 2)%Z = false <-> active b a.
Proof. unfold active. apply Z.eqb_neq. Qed.

(** a finite list of limits *)
Fixpoint minOver (l : list ext) : ext := match l with [] => Infinity | x :: r => fmin x (minOver r) end.
Lemma fmin_assoc a b c : fmin (fmin a b) c = fmin a (fmin b c).
Proof. destruct a, b, c; cbn [fmin]; try reflexivity. f_equal. unfold Rmin. repeat destruct Rle_dec; lra. Qed.
Lemma fmin_inf a : fmin a Infinity = a. Proof. destruct a; reflexivity. Qed.
Lemma minOver_spec l : (forall x, minOver l = Finite x -> (forall y, In (Finite y) l -> x <= y) /\ In (Finite x) l) /\ (minOver l = Infinity <-> forall y, ~ In (Finite y) l).
Proof.
  induction l as [|e l [A B]]; [split; [discriminate | split; [intros _ y [] | reflexivity]]|]. cbn [minOver]. destruct e as [e|].
  - destruct (minOver l) as [m|] eqn:E; cbn [fmin].
    + destruct (A m eq_refl) as [A1 A2]. split; [|split; [discriminate | intros H; elim (H e); now left]]. intros x X. assert (x = Rmin e m) as -> by congruence. split.
      * intros y [Y | Y]; [assert (y = e) as -> by congruence; apply Rmin_l | eapply Rle_trans; [apply Rmin_r | now apply A1]].
      * unfold Rmin. destruct Rle_dec; [now left | now right].
    + split; [|split; [discriminate | intros H; elim (H e); now left]]. intros x X. assert (x = e) as -> by congruence. split; [|now left].
      intros y [Y | Y]; [assert (y = e) as -> by congruence; lra | elim (proj1 B eq_refl y Y)].
  - cbn [fmin]. split.
    + intros x X. destruct (A x X) as [A1 A2]. split; [intros y [Y | Y]; [discriminate | now apply A1] | now right].
    + rewrite B. split; intros H y; [intros [Y | Y]; [discriminate | exact (H y Y)] | intros Y; exact (H y (or_intror Y))].
Qed.
Definition convLimit b i j k a := unlessFlat (size (cb_d b) a) (1 / 2 * width b a i j k / (componentSpeed b a i j k + soundSpeed b i j k)).
Definition viscLimit b nu i j k a := unlessFlat (size (cb_d b) a) (1 / 10 * width b a i j k ^ 2 / nu).
Lemma pseudoStep_min b mu rho (vis : bool) i j k : pseudoStep b mu rho vis i j k = minOver (map (convLimit b i j k) axes ++ if vis then map (viscLimit b (mu / rho) i j k) axes else []).
Proof.
  unfold pseudoStep, convLimit, viscLimit, axes. cbv zeta. rewrite !width_dual, !speed_dual. destruct vis; cbn [map app minOver size]; rewrite ?fmin_inf, <- ?fmin_assoc; reflexivity.
Qed.
Lemma limit_in {b a x y} : unlessFlat (size (cb_d b) a) x = Finite y -> active b a /\ y = x.
Proof. unfold unlessFlat. destruct (size (cb_d b) a =? 2)%Z eqn:E; [discriminate|]. intros H. split; [now apply flat_iff | congruence]. Qed.
(** every direction has a positive width, the sound speed and the viscosity are positive *)
Record goodCell (b : cblock) (i j k : Z) (nu : R) : Prop := { gw : forall a, 0 < width b a i j k; gc : 0 < soundSpeed b i j k; gn : 0 < nu }.
Lemma componentSpeed_nonneg b a i j k : 0 <= componentSpeed b a i j k.
Proof. unfold componentSpeed, norm. cbv zeta. apply sqrt_pos. Qed.
Lemma used_pos b a i j k nu : goodCell b i j k nu -> 0 < usedRadius b a i j k.
Proof. intros [W C _]. unfold usedRadius. apply Rdiv_lt_0_compat; [pose proof (componentSpeed_nonneg b a i j k); lra | apply W]. Qed.
Lemma in_limits b nu (vis : bool) i j k y : In (Finite y) (map (convLimit b i j k) axes ++ if vis then map (viscLimit b nu i j k) axes else []) <->
  exists a, active b a /\ (y = 1 / 2 * width b a i j k / (componentSpeed b a i j k + soundSpeed b i j k) \/ vis = true /\ y = 1 / 10 * width b a i j k ^ 2 / nu).
Proof.
  rewrite in_app_iff, in_map_iff. split.
  - intros [(a & E & _) | H]; [destruct (limit_in E); exists a; auto|]. destruct vis; [|destruct H]. apply in_map_iff in H. destruct H as (a & E & _). destruct (limit_in E); exists a; auto.
  - intros (a & Ha & H). apply flat_iff in Ha. assert (I : In a axes) by (unfold axes; destruct a; cbn; auto). destruct H as [-> | [-> ->]].
    + left. exists a. split; [|exact I]. unfold convLimit, unlessFlat. now rewrite Ha.
    + right. apply in_map_iff. exists a. split; [|exact I]. unfold viscLimit, unlessFlat. now rewrite Ha.
Qed.

(** C142: the pseudo-time step of every interior cell is positive; in each direction in which the block is more than one cell thick it is at most half a cell width per acoustic-plus-convective
    speed as the code measures it, and, with viscosity, at most a tenth of the width squared over the kinematic viscosity; and it is the largest such step.  It is infinite exactly if there is no
    such direction. *)
Theorem C142_limits : forall b mu rho vis old i j k, interior (cb_d b) (cb_ng b) i j k -> goodCell b i j k (mu i j k / rho i j k) ->
  let nu := mu i j k / rho i j k in
  (localDtau b mu rho vis old i j k = Infinity <-> forall a, ~ active b a) /\
  forall x, localDtau b mu rho vis old i j k = Finite x ->
    0 < x /\ (forall a, active b a -> x * usedRadius b a i j k <= 1 / 2 /\ (vis = true -> x * nu <= 1 / 10 * width b a i j k ^ 2)) /\
    exists a, active b a /\ (x * usedRadius b a i j k = 1 / 2 \/ vis = true /\ x * nu = 1 / 10 * width b a i j k ^ 2).
Proof.
  intros b mu rho vis old i j k Hi G nu. unfold localDtau.
  replace (inCC (cb_d b) (cb_ng b) 1 i j k 0) with true by (symmetry; unfold inCC; destruct Hi as (? & ? & ?); rewrite !andb_true_iff, !Z.leb_le, !Z.ltb_lt; lia).
  rewrite pseudoStep_min. fold nu. fold nu in G. destruct (minOver_spec (map (convLimit b i j k) axes ++ if vis then map (viscLimit b nu i j k) axes else [])) as [A B]. split.
  - rewrite B. split.
    + intros H a Ha. apply (H (1 / 2 * width b a i j k / (componentSpeed b a i j k + soundSpeed b i j k))). apply in_limits. exists a. auto.
    + intros H y Y. apply in_limits in Y. destruct Y as (a & Ha & _). exact (H a Ha).
  - intros x X. destruct (A x X) as [L I]. pose proof (gn _ _ _ _ _ G) as Gn. pose proof (gc _ _ _ _ _ G) as Gc.
    assert (Cv : forall a, 1 / 2 * width b a i j k / (componentSpeed b a i j k + soundSpeed b i j k) * usedRadius b a i j k = 1 / 2).
    { intros a. pose proof (gw _ _ _ _ _ G a). pose proof (componentSpeed_nonneg b a i j k). unfold usedRadius. field. lra. }
    assert (Cd : forall a, 1 / 10 * width b a i j k ^ 2 / nu * nu = 1 / 10 * width b a i j k ^ 2) by (intros; field; lra).
    split; [|split].
    + apply in_limits in I. destruct I as (a & Ha & [-> | [_ ->]]); pose proof (gw _ _ _ _ _ G a); pose proof (componentSpeed_nonneg b a i j k); apply Rdiv_lt_0_compat; try lra. pose proof (pow_lt (width b a i j k) 2 H). lra.
    + intros a Ha. pose proof (used_pos b a i j k nu G). split.
      * rewrite <- (Cv a). apply Rmult_le_compat_r; [lra|]. apply L. apply in_limits. exists a. auto.
      * intros V. rewrite <- (Cd a). apply Rmult_le_compat_r; [lra|]. apply L. apply in_limits. exists a. auto.
    + apply in_limits in I. destruct I as (a & Ha & [-> | [V ->]]); exists a; (split; [exact Ha|]); [left; apply Cv | right; split; [exact V | apply Cd]].
Qed.
Theorem C142_interior_only : forall b mu rho vis old i j k, ~ interior (cb_d b) (cb_ng b) i j k -> localDtau b mu rho vis old i j k = old i j k.
Proof.
  intros b mu rho vis old i j k H. unfold localDtau. destruct (inCC (cb_d b) (cb_ng b) 1 i j k 0) eqn:E; [|reflexivity]. elim H. unfold inCC in E. rewrite !andb_true_iff, !Z.leb_le, !Z.ltb_lt in E. unfold interior. lia.
Qed.
(** the step does not depend on the units: measured in other units of length and time it is the same time *)
Lemma scale_minOver s l : 0 < s -> minOver (map (scaleExt s) l) = scaleExt s (minOver l).
Proof.
  intros Hs. induction l as [|e l IH]; [reflexivity|]. cbn [map minOver]. rewrite IH. destruct e as [e|], (minOver l) as [m|]; cbn [scaleExt fmin]; try reflexivity.
  f_equal. unfold Rmin. destruct (Rle_dec e m), (Rle_dec (s * e) (s * m)); try reflexivity; [elim n; now apply Rmult_le_compat_l; [lra|] | elim n; eapply Rmult_le_reg_l; eauto].
Qed.
Lemma norm_scale s v : 0 <= s -> norm (vscale s v) = s * norm v.
Proof.
  intros Hs. unfold norm, dot, vscale, vx, vy, vz; cbn [fst snd]. replace (s * fst (fst v) * (s * fst (fst v)) + s * snd (fst v) * (s * snd (fst v)) + s * snd v * (s * snd v)) with (s * s * (fst (fst v) * fst (fst v) + snd (fst v) * snd (fst v) + snd v * snd v)) by ring.
  rewrite sqrt_mult_alt by nra. rewrite sqrt_square by exact Hs. reflexivity.
Qed.
Section Units.
Variables (L T : R) (b b' : cblock).
Hypotheses (HL : 0 < L) (HT : 0 < T) (Res : rescaled L T b b').
Lemma LT_pos : 0 < L / T. Proof. now apply Rdiv_lt_0_compat. Qed.
Lemma width_scale a i j k : width b' a i j k = L * width b a i j k.
Proof.
  destruct Res as (_ & _ & _ & _ & C & _). unfold width. rewrite <- norm_scale by lra. f_equal. assert (N : nextOf a (centreOf b' a) i j k = vscale L (nextOf a (centreOf b a) i j k)) by (destruct a; cbn [nextOf]; apply C).
  rewrite N, C. unfold vsub, vscale, vx, vy, vz; cbn [fst snd]. f_equal; [f_equal|]; ring.
Qed.
Lemma cellVel_scale i j k : cellVel b' i j k = vscale (L / T) (cellVel b i j k).
Proof. destruct Res as (_ & _ & V & _). unfold cellVel, vscale, vx, vy, vz; cbn [fst snd]. now rewrite !V by lia. Qed.
Lemma meanN_same a i j k : meanN b' a i j k = meanN b a i j k.
Proof. destruct Res as (_ & _ & _ & _ & _ & N). unfold meanN. rewrite N. f_equal. f_equal. destruct a; cbn [nextOf]; apply N. Qed.
Lemma component_scale a i j k : componentSpeed b' a i j k = L / T * componentSpeed b a i j k.
Proof.
  unfold componentSpeed. cbv zeta. rewrite cellVel_scale, meanN_same. pose proof LT_pos. rewrite <- norm_scale by lra. f_equal. unfold vscale, vx, vy, vz; cbn [fst snd]. f_equal; [f_equal|]; ring.
Qed.
Lemma sound_scale i j k : soundSpeed b' i j k = L / T * soundSpeed b i j k.
Proof. destruct Res as (_ & _ & _ & C & _). apply C. Qed.
Lemma speed_scale i j k : speed b' i j k = L / T * speed b i j k.
Proof. unfold speed. pose proof LT_pos. rewrite cellVel_scale, norm_scale by lra. reflexivity. Qed.
End Units.
Theorem C142_units : forall L T b b' mu rho mu' rho' vis i j k, 0 < L -> 0 < T -> rescaled L T b b' -> goodCell b i j k (mu / rho) -> mu' / rho' = L ^ 2 / T * (mu / rho) ->
  pseudoStep b' mu' rho' vis i j k = scaleExt T (pseudoStep b mu rho vis i j k).
Proof.
  intros L T b b' mu rho mu' rho' vis i j k HL HT Res G En. rewrite !pseudoStep_min, En. rewrite <- scale_minOver by exact HT. f_equal. rewrite map_app. f_equal.
  - rewrite map_map. apply map_ext. intros a. unfold convLimit, unlessFlat. replace (cb_d b') with (cb_d b) by (destruct Res as (-> & _); reflexivity). destruct (size (cb_d b) a =? 2)%Z; [reflexivity|]. cbn [scaleExt]. f_equal.
    rewrite (width_scale L T b b' HL Res), (component_scale L T b b' HL HT Res), (sound_scale L T b b' Res). pose proof (componentSpeed_nonneg b a i j k). pose proof (gc _ _ _ _ _ G). field. repeat split; try lra. intros X. assert (0 < L * componentSpeed b a i j k + L * soundSpeed b i j k) by nra. lra.
  - destruct vis; [|reflexivity]. rewrite map_map. apply map_ext. intros a. unfold viscLimit, unlessFlat. replace (cb_d b') with (cb_d b) by (destruct Res as (-> & _); reflexivity). destruct (size (cb_d b) a =? 2)%Z; [reflexivity|]. cbn [scaleExt]. f_equal.
    rewrite (width_scale L T b b' HL Res). pose proof (gn _ _ _ _ _ G). set (nu := mu / rho) in *. field. repeat split; lra.
Qed.
(** with respect to the true spectral radius |u.n| + c the step is within a factor sqrt 3 ... *)
Theorem C142_spectral_partial : forall b mu rho vis old i j k x a, interior (cb_d b) (cb_ng b) i j k -> goodCell b i j k (mu i j k / rho i j k) ->
  localDtau b mu rho vis old i j k = Finite x -> active b a -> x * spectral b a i j k <= sqrt 3 / 2.
Proof.
  intros b mu rho vis old i j k x a Hi G E Ha. destruct (C142_limits b mu rho vis old i j k Hi G) as [_ A]. destruct (A x E) as (P & B & _). destruct (B a Ha) as [B1 _].
  pose proof (spectral_used b a i j k (gw _ _ _ _ _ G a) (Rlt_le _ _ (gc _ _ _ _ _ G))). pose proof sqrt3_ge1. pose proof (used_pos b a i j k _ G). nra.
Qed.
(** ... but it can exceed half a width per true spectral radius: a cell whose normal and velocity are both diagonal *)
Theorem C142_spectral_refuted : exists b i j k x, interior (cb_d b) (cb_ng b) i j k /\ (exists nu, goodCell b i j k nu) /\ active b AI /\
  localDtau b (fun _ _ _ => 1) (fun _ _ _ => 1) false (fun _ _ _ => Infinity) i j k = Finite x /\ 1 / 2 < x * spectral b AI i j k.
Proof.
  exists exCB, 1%Z, 1%Z, 1%Z, (1 / 2 / usedRadius exCB AI 1 1 1).
  assert (Hi : interior (cb_d exCB) (cb_ng exCB) 1 1 1) by (unfold interior; cbn; lia).
  assert (G : goodCell exCB 1 1 1 1).
  { split; [|unfold soundSpeed, exCB; cbn; lra | lra]. intros a. unfold width, norm, dot, vsub, centreOf, nextOf, exCB. destruct a; cbn [cb_ic cb_jc cb_kc]; unfold vx, vy, vz; cbn [fst snd]; apply sqrt_lt_R0; cbn; lra. }
  assert (Ac : active exCB AI) by (unfold active; cbn; lia).
  split; [exact Hi|]. split; [exists 1; exact G|]. split; [exact Ac|].
  assert (S : spectral exCB AI 1 1 1 = 6).
  { unfold spectral. rewrite exWidth. unfold dot3, meanN, cellVel, soundSpeed, normalOf, nextOf, exCB, diagN; cbn [cb_in cb_q cb_qh Z.eqb Pos.eqb]. unfold vscale, vadd, vx, vy, vz; cbn [fst snd]. rewrite Rabs_pos_eq by lra. field. }
  assert (Up : 0 < usedRadius exCB AI 1 1 1) by exact (used_pos exCB AI 1 1 1 1 G).
  split.
  - assert (G1 : goodCell exCB 1 1 1 (1 / 1)) by (replace (1 / 1) with 1 by field; exact G).
    destruct (C142_limits exCB (fun _ _ _ => 1) (fun _ _ _ => 1) false (fun _ _ _ => Infinity) 1 1 1 Hi G1) as [I F].
    destruct (localDtau exCB _ _ false _ 1 1 1) as [x|] eqn:E; [|elim (proj1 I eq_refl AI Ac)]. destruct (F x eq_refl) as (_ & _ & a & Ha & [Q | [Q _]]); [|discriminate].
    destruct a; [|exfalso; apply Ha; reflexivity|exfalso; apply Ha; reflexivity]. f_equal. rewrite <- Q. field. lra.
  - rewrite S, exUsed. assert (B: sqrt (337/25) < 5). { rewrite <- (sqrt_square 5) by lra. apply sqrt_lt_1_alt. lra. }
    pose proof (sqrt_pos (337/25)). set (s := sqrt (337/25)) in *. apply (Rmult_lt_reg_r (s + 1)); [lra|]. replace (1 / 2 / (s + 1) * 6 * (s + 1)) with 3 by (field; lra). lra.
Qed.

(** C143: without viscosity the reference velocity is the flow speed, kept between a hundred-thousandth of the sound speed and the sound speed; it is a velocity (the same in all units).
    One value is not covered: see C143_one_speed_refuted. *)
Lemma ref_formula U c : 0 < c -> 0 <= U -> U <> c / 10 ^ 5 -> refVelocity U c None = clamp (c / 10 ^ 5) c U.
Proof.
  intros Hc HU N. assert (E5 : c / 10 ^ 5 = 1 / 100000 * c) by (simpl; field). rewrite E5 in *. unfold refVelocity, clamp. cbv zeta. unfold Rmax, Rmin.
  repeat destruct Rlt_dec; repeat destruct Rle_dec; lra.
Qed.
Lemma cellU b i j k : Rabs (sqrt (cb_q b i j k 1%Z ^ 2 + cb_q b i j k 2%Z ^ 2 + cb_q b i j k 3%Z ^ 2)) = speed b i j k.
Proof. rewrite Rabs_pos_eq by apply sqrt_pos. unfold speed, norm, dot, cellVel, vx, vy, vz; cbn [fst snd]. f_equal. ring. Qed.
Theorem C143_inviscid : forall b mu rho i j k, 0 < soundSpeed b i j k -> let U := speed b i j k in let c := soundSpeed b i j k in
  (U <> c / 10 ^ 5 -> cellRefVelocity b mu rho false i j k = clamp (c / 10 ^ 5) c U) /\ c / 10 ^ 5 <= cellRefVelocity b mu rho false i j k <= c.
Proof.
  intros b mu rho i j k Hc U c. unfold cellRefVelocity. cbv zeta. rewrite cellU. fold U. change (cb_qh b i j k 3%Z) with c. fold c in Hc.
  assert (HU : 0 <= U) by (unfold U, speed, norm; apply sqrt_pos). split; [intros N; now apply ref_formula|].
  assert (E5 : c / 10 ^ 5 = 1 / 100000 * c) by (simpl; field). rewrite E5. unfold refVelocity. cbv zeta. repeat destruct Rlt_dec; lra.
Qed.
Theorem C143_units : forall L T b b' mu rho mu' rho' i j k, 0 < L -> 0 < T -> rescaled L T b b' -> 0 < soundSpeed b i j k ->
  cellRefVelocity b' mu' rho' false i j k = L / T * cellRefVelocity b mu rho false i j k.
Proof.
  intros L T b b' mu rho mu' rho' i j k HL HT Res Hc. unfold cellRefVelocity. cbv zeta. rewrite !cellU. rewrite (speed_scale L T b b' HL HT Res).
  change (cb_qh b' i j k 3%Z) with (soundSpeed b' i j k). change (cb_qh b i j k 3%Z) with (soundSpeed b i j k). rewrite (sound_scale L T b b' Res).
  pose proof (LT_pos L T HL HT) as P. set (s := L / T) in *. set (U := speed b i j k). set (c := soundSpeed b i j k) in *. unfold refVelocity. cbv zeta.
  assert (M : forall x y, x < y -> s * x < s * y) by (intros; now apply Rmult_lt_compat_l). assert (M' : forall x y, s * x < s * y -> x < y) by (intros; now apply (Rmult_lt_reg_l s)).
  replace (1 / 100000 * (s * c)) with (s * (1 / 100000 * c)) by ring.
  destruct (Rlt_dec U (1 / 100000 * c)) as [A | A], (Rlt_dec (s * U) (s * (1 / 100000 * c))) as [A' | A']; try (exfalso; auto; fail); [reflexivity|].
  destruct (Rlt_dec (1 / 100000 * c) U) as [B | B], (Rlt_dec (s * (1 / 100000 * c)) (s * U)) as [B' | B']; try (exfalso; auto; fail); [|reflexivity].
  destruct (Rlt_dec U c) as [C | C], (Rlt_dec (s * U) (s * c)) as [C' | C']; try (exfalso; auto; fail); reflexivity.
Qed.
(** at exactly one speed, a hundred-thousandth of the sound speed, the reference velocity is the sound speed instead: a hundred thousand times the value on either side *)
Theorem C143_one_speed_refuted : forall c, 0 < c -> refVelocity (c / 10 ^ 5) c None = c /\
  forall e, 0 < e -> e < c -> refVelocity (c / 10 ^ 5 + e * / 10 ^ 5) c None <= (c + e) / 10 ^ 5 /\ refVelocity (c / 10 ^ 5 - e * / 10 ^ 5) c None = c / 10 ^ 5.
Proof.
  intros c Hc. assert (E5 : / 10 ^ 5 = 1 / 100000) by (simpl; field). unfold Rdiv. rewrite !E5. split; [|intros e He Hec; split]; unfold refVelocity; cbv zeta; repeat destruct Rlt_dec; lra.
Qed.
(** with viscosity the velocity is limited by width / (kinematic viscosity), which is not a velocity but the inverse of one: the limit depends on the units ... *)
Definition stillBlock (s : R) : cblock := mkCB (mkDims 3 2 2) 1 (fun _ _ _ _ => 0) (fun _ _ _ _ => 100)
  (fun i j k => (s * IZR i, 0, 0)) (fun i j k => (0, s * IZR j, 0)) (fun i j k => (0, 0, s * IZR k))
  (fun _ _ _ => (1, 0, 0)) (fun _ _ _ => (0, 1, 0)) (fun _ _ _ => (0, 0, 1)).
Lemma still_limit s mu i j k : 0 < s -> viscousLimit (stillBlock s) mu 1 i j k = Finite (s / (mu / 1)).
Proof.
  intros Hs. unfold viscousLimit, unlessFlat. cbv zeta. cbn [stillBlock cb_d ni nj nk Z.eqb Pos.eqb fmin]. f_equal. f_equal. unfold dualWidth, dist3, stillBlock. cbn [cb_ic]. unfold vx, vy, vz; cbn [fst snd].
  rewrite plus_IZR. replace ((s * (IZR i + 1) - s * IZR i) ^ 2 + (0 - 0) ^ 2 + (0 - 0) ^ 2) with (s * s) by ring. apply sqrt_square. lra.
Qed.
Lemma still_ref s mu i j k : 0 < s -> cellRefVelocity (stillBlock s) mu 1 true i j k = Rmin (1 / 1000) (s / (mu / 1)).
Proof.
  intros Hs. unfold cellRefVelocity. cbv zeta. rewrite (still_limit s mu i j k Hs). rewrite cellU. unfold speed, cellVel, norm, dot, stillBlock, vx, vy, vz; cbn [cb_q cb_qh fst snd]. replace (0 * 0 + 0 * 0 + 0 * 0) with 0 by ring. rewrite sqrt_0.
  unfold refVelocity. cbv zeta. destruct (Rlt_dec 0 (1 / 100000 * 100)); [|lra]. f_equal. lra.
Qed.
Definition stillRescaled (L : R) (s : R) : cblock := mkCB (mkDims 3 2 2) 1 (fun _ _ _ _ => 0) (fun _ _ _ _ => L * 100)
  (fun i j k => (L * s * IZR i, 0, 0)) (fun i j k => (0, L * s * IZR j, 0)) (fun i j k => (0, 0, L * s * IZR k))
  (fun _ _ _ => (1, 0, 0)) (fun _ _ _ => (0, 1, 0)) (fun _ _ _ => (0, 0, 1)).
(** ... the same cell of still gas (width 1 m, sound speed 100 m/s, viscosity 2000 m2/s): 1/2000 m/s in metres, but with millimetres as unit, 1/2000000 mm/s *)
Theorem C143_viscous_units_refuted : ~ (forall L T b b' mu rho mu' rho' i j k, 0 < L -> 0 < T -> rescaled L T b b' -> 0 < soundSpeed b i j k -> 0 < mu / rho -> mu' / rho' = L ^ 2 / T * (mu / rho) ->
  cellRefVelocity b' mu' rho' true i j k = L / T * cellRefVelocity b mu rho true i j k).
Proof.
  intros P. specialize (P 1000 1 (stillBlock 1) (stillRescaled 1000 1) 2000 1 (1000 ^ 2 * 2000) 1 1%Z 1%Z 1%Z). rewrite (still_ref 1 2000) in P by lra.
  assert (E : cellRefVelocity (stillRescaled 1000 1) (1000 ^ 2 * 2000) 1 true 1 1 1 = 1 / 2000000).
  { unfold cellRefVelocity. cbv zeta. rewrite cellU.
    assert (V : viscousLimit (stillRescaled 1000 1) (1000 ^ 2 * 2000) 1 1 1 1 = Finite (1 / 2000000)).
    { unfold viscousLimit, unlessFlat. cbv zeta. cbn [stillRescaled cb_d ni nj nk Z.eqb Pos.eqb fmin]. f_equal. unfold dualWidth, dist3, stillRescaled. cbn [cb_ic]. unfold vx, vy, vz; cbn [fst snd]. rewrite plus_IZR.
      replace ((1000 * 1 * (1 + 1) - 1000 * 1 * 1) ^ 2 + (0 - 0) ^ 2 + (0 - 0) ^ 2) with (1000 * 1000) by ring. rewrite sqrt_square by lra. simpl. field. }
    rewrite V. unfold speed, cellVel, norm, dot, stillRescaled, vx, vy, vz; cbn [cb_q cb_qh fst snd]. replace (0 * 0 + 0 * 0 + 0 * 0) with 0 by ring. rewrite sqrt_0.
    unfold refVelocity. cbv zeta. destruct (Rlt_dec 0 (1 / 100000 * (1000 * 100))); [|lra]. rewrite Rmin_right; lra. }
  rewrite E in P. rewrite Rmin_right in P by lra.
  assert (Q : 1 / 2000000 = 1000 / 1 * (1 / (2000 / 1))); [|lra]. apply P; clear P E; try lra.
  - split; [reflexivity|]. split; [reflexivity|]. split; [intros; cbn; lra|]. split; [intros; cbn; lra|]. split; intros a i j k; destruct a; cbn [centreOf normalOf stillBlock stillRescaled cb_ic cb_jc cb_kc cb_in cb_jn cb_kn]; try reflexivity;
      unfold vscale, vx, vy, vz; cbn [fst snd]; f_equal; try f_equal; ring.
  - unfold soundSpeed, stillBlock. cbn. lra.
Qed.
(** the cells the theorems are about exist: every direction is limited in a block of 2 x 2 x 2 cells *)
Example C142_nonvacuous : exists x, localDtau (mkCB (mkDims 3 3 3) 1 (fun _ _ _ _ => 0) (fun _ _ _ _ => 100)
  (fun i j k => (IZR i, 0, 0)) (fun i j k => (0, IZR j, 0)) (fun i j k => (0, 0, IZR k)) (fun _ _ _ => (1, 0, 0)) (fun _ _ _ => (0, 1, 0)) (fun _ _ _ => (0, 0, 1)))
  (fun _ _ _ => 1) (fun _ _ _ => 1) true (fun _ _ _ => Infinity) 1 1 1 = Finite x /\ x = 1 / 200.
Proof.
  eexists. split; [unfold localDtau; cbn -[pseudoStep]; unfold pseudoStep, unlessFlat; cbv zeta; cbn [cb_d ni nj nk Z.eqb Pos.eqb fmin]; reflexivity|].
  unfold dualWidth, dualSpeed, dist3, cflU. cbn [cb_ic cb_jc cb_kc cb_in cb_jn cb_kn cb_q cb_qh]. unfold vx, vy, vz; cbn [fst snd]. rewrite !plus_IZR.
  repeat match goal with |- context [sqrt ?y] => first [replace y with 1 by ring; rewrite sqrt_1 | replace y with 0 by ring; rewrite sqrt_0] end. replace (1 / 2 * 1 / (0 + 100)) with (1 / 200) by field. replace (1 / 10 * 1 ^ 2 / (1 / 1)) with (1 / 10) by field. unfold Rmin. repeat destruct Rle_dec; lra.
Qed.
Print Assumptions C142_limits. Print Assumptions C142_units. Print Assumptions C142_spectral_partial. Print Assumptions C142_spectral_refuted. Print Assumptions C143_inviscid. Print Assumptions C143_units. Print Assumptions C143_viscous_units_refuted.
