(** Subgrid models: C75. *)
From Coq Require Import Reals ZArith List Bool Lia Lra Psatz.
From Verif Require Import M_Topology M_Halo M_Grid M_Metrics S_Metrics S_Sum M_Subgrid L_Vec.
Import ListNotations.
Open Scope R_scope.

Lemma cpow_nonneg x y : 0 <= cpow x y.
Proof. unfold cpow. destruct (Req_EM_T x 0); [lra|]. left. apply exp_pos. Qed.
Lemma strain_nonneg gu gv gw : 0 <= strainMag gu gv gw.
Proof. unfold strainMag. cbv zeta. apply sqrt_pos. Qed.
Lemma smagorinskyNu_nonneg J gu gv gw : 0 <= smagorinskyNu J gu gv gw.
Proof. unfold smagorinskyNu. cbv zeta. pose proof (strain_nonneg gu gv gw). set (d := 18/100 * cpow J (1/3)). assert (0 <= d ^ 2) by nra. nra. Qed.
Lemma mixedNu_nonneg J gu gv gw q i j k : 0 <= mixedNu J gu gv gw q i j k.
Proof. unfold mixedNu. cbv zeta. apply Rmult_le_pos; [apply Rmult_le_pos; [apply Rmult_le_pos; [lra|]|]|]; apply cpow_nonneg. Qed.
Lemma addSgs_ge ne nu rho cp qt l : 0 <= nu -> 0 <= rho -> 0 <= cp -> qt l <= addSgs ne nu rho cp qt l.
Proof.
  intros A B C. unfold addSgs. cbv zeta. destruct (Z.eqb_spec l 0) as [->|]; [nra|]. destruct (Z.eqb_spec l 1) as [->|].
  - assert (0 <= nu * rho) by nra. assert (0 <= nu * rho * cp) by nra. unfold Rdiv. lra.
  - destruct (_ && _)%bool; lra.
Qed.
Lemma addSgs_zero ne rho cp qt l : addSgs ne 0 rho cp qt l = qt l.
Proof. unfold addSgs. cbv zeta. destruct (Z.eqb_spec l 0) as [->|]; [ring|]. destruct (Z.eqb_spec l 1) as [->|]; [unfold Rdiv; ring|]. destruct (_ && _)%bool; [unfold Rdiv; ring|auto]. Qed.

(** viscosity (entry 0), conductivity (1) and diffusivities (2..) never decrease, anywhere *)
Theorem C75_never_reduces : forall d ng ne J rho cp G q qt i j k l, (forall i j k, 0 <= rho i j k) -> (forall i j k, 0 <= cp i j k) ->
  qt i j k l <= smagorinsky d ng ne J rho cp G qt i j k l /\ qt i j k l <= mixedScaleModel d ng ne J rho cp G q qt i j k l.
Proof.
  intros d ng ne J rho cp G q qt i j k l Hr Hc. unfold smagorinsky, mixedScaleModel. destruct (inSgs d ng i j k); [|split; lra].
  split; apply addSgs_ge; auto; [apply smagorinskyNu_nonneg|apply mixedNu_nonneg].
Qed.
(** the velocity gradient is antisymmetric: uniform flow or rigid rotation *)
Definition rigid (gu gv gw : vec) : Prop :=
  vx gu = 0 /\ vy gv = 0 /\ vz gw = 0 /\ vy gu = - vx gv /\ vz gu = - vx gw /\ vz gv = - vy gw.
Lemma strain_rigid gu gv gw : strainMag gu gv gw = 0 <-> rigid gu gv gw.
Proof.
  unfold strainMag, rigid. cbv zeta. split.
  - intros H.
    set (a := vx gu) in *. set (b := vy gv) in *. set (c := vz gw) in *. set (e := vy gu) in *. set (f := vx gv) in *. set (g := vz gu) in *. set (h := vx gw) in *. set (m := vz gv) in *. set (n := vy gw) in *.
    assert (SQ : forall x : R, 0 <= x * x) by (intros; nra). assert (Z0 : forall x : R, x * x = 0 -> x = 0) by (intros; nra).
    pose proof (SQ a). pose proof (SQ b). pose proof (SQ c). pose proof (SQ (5/10 * (e + f))). pose proof (SQ (5/10 * (g + h))). pose proof (SQ (5/10 * (m + n))).
    apply sqrt_eq_0 in H; [|lra].
    assert (a = 0) by (apply Z0; lra). assert (b = 0) by (apply Z0; lra). assert (c = 0) by (apply Z0; lra).
    assert (5/10 * (e + f) = 0) by (apply Z0; lra). assert (5/10 * (g + h) = 0) by (apply Z0; lra). assert (5/10 * (m + n) = 0) by (apply Z0; lra). repeat split; lra.
  - intros (A & B & C & D & E & F). rewrite A, B, C, D, E, F. match goal with |- sqrt ?x = 0 => replace x with 0 by field end. apply sqrt_0.
Qed.
Theorem C75_nothing_in_rigid_motion : forall d ng ne J rho cp G q qt i j k l, rigid (G i j k 1%Z) (G i j k 2%Z) (G i j k 3%Z) ->
  smagorinsky d ng ne J rho cp G qt i j k l = qt i j k l /\ mixedScaleModel d ng ne J rho cp G q qt i j k l = qt i j k l.
Proof.
  intros d ng ne J rho cp G q qt i j k l H. apply strain_rigid in H. unfold smagorinsky, mixedScaleModel. destruct (inSgs d ng i j k); [|split; auto].
  unfold smagorinskyNu, mixedNu. cbv zeta. rewrite H. rewrite Rmult_0_r, addSgs_zero. split; auto.
  unfold cpow at 1. destruct (Req_EM_T 0 0) as [_|N]; [|now elim N]. rewrite Rmult_0_r, !Rmult_0_l. apply addSgs_zero.
Qed.
Corollary C75_nothing_in_uniform_flow : forall d ng ne J rho cp G q qt i j k l, (forall m, (1 <= m <= 3)%Z -> G i j k m = vzero) ->
  smagorinsky d ng ne J rho cp G qt i j k l = qt i j k l /\ mixedScaleModel d ng ne J rho cp G q qt i j k l = qt i j k l.
Proof. intros. apply C75_nothing_in_rigid_motion. rewrite !H by lia. unfold rigid. rewrite vx_zero, vy_zero, vz_zero. repeat split; lra. Qed.
(** and Smagorinsky does add viscosity to a strained cell of the range it works on: interior cells and the first halo layer *)
Theorem C75_smagorinsky_acts : forall d ng ne J rho cp G qt i j k, (ng - 1 <= i < ni d + ng)%Z -> (ng - 1 <= j < nj d + ng)%Z -> (ng - 1 <= k < nk d + ng)%Z ->
  0 < J i j k -> 0 < rho i j k -> ~ rigid (G i j k 1%Z) (G i j k 2%Z) (G i j k 3%Z) -> qt i j k 0%Z < smagorinsky d ng ne J rho cp G qt i j k 0%Z.
Proof.
  intros d ng ne J rho cp G qt i j k Hi Hj Hk HJ Hr HG. unfold smagorinsky. replace (inSgs d ng i j k) with true.
  - unfold addSgs. cbv zeta. cbn [Z.eqb]. assert (0 < smagorinskyNu (J i j k) (G i j k 1%Z) (G i j k 2%Z) (G i j k 3%Z)); [|nra].
    unfold smagorinskyNu. cbv zeta. assert (0 < cpow (J i j k) (1/3)) by (unfold cpow; destruct (Req_EM_T (J i j k) 0); [lra|apply exp_pos]).
    assert (0 < strainMag (G i j k 1%Z) (G i j k 2%Z) (G i j k 3%Z)).
    { destruct (Rle_lt_or_eq_dec _ _ (strain_nonneg (G i j k 1%Z) (G i j k 2%Z) (G i j k 3%Z))); auto. exfalso. apply HG. apply strain_rigid. auto. }
    set (e := cpow (J i j k) (1/3)) in *. assert (0 < (18/100 * e) ^ 2) by nra. nra.
  - symmetry. unfold inSgs. rewrite !andb_true_iff, !Z.leb_le, !Z.ltb_lt. lia.
Qed.
(** *** What exactly is added *)
(** one eddy viscosity per cell explains every entry of the cell: viscosity grows by rho * nu, conductivity by that times
    cp over a Prandtl number of 0.4, each of the ne - 4 diffusivities by nu, and nothing else changes; cells outside the
    range keep their properties *)
Definition addsViscosity (ne : Z) (rho cp nu : R) (before after : Z -> R) : Prop :=
  after 0%Z = before 0%Z + rho * nu /\ after 1%Z = before 1%Z + rho * nu * cp * (5/2) /\
  (forall n, (0 <= n < ne - 4)%Z -> after (2 + n)%Z = before (2 + n)%Z + nu) /\
  (forall l, (l < 0 \/ ne - 2 <= l)%Z -> (l <> 0 /\ l <> 1)%Z -> after l = before l).
Lemma addSgs_spec ne nu rho cp qt : addsViscosity ne rho cp nu qt (addSgs ne nu rho cp qt).
Proof.
  unfold addsViscosity, addSgs. cbv zeta. cbn [Z.eqb Pos.eqb]. split; [ring|]. split; [field|]. split.
  - intros n Hn. destruct (Z.eqb_spec (2 + n) 0); [lia|]. destruct (Z.eqb_spec (2 + n) 1); [lia|].
    replace ((2 <=? 2 + n) && (2 + n <=? ne - 5 + 2))%Z%bool with true; [field|]. symmetry. rewrite andb_true_iff, !Z.leb_le. lia.
  - intros l Hl (N0 & N1). destruct (Z.eqb_spec l 0); [lia|]. destruct (Z.eqb_spec l 1); [lia|].
    destruct ((2 <=? l) && (l <=? ne - 5 + 2))%Z%bool eqn:E; auto. rewrite andb_true_iff, !Z.leb_le in E. lia.
Qed.
(** twice the squared strain rate *)
Definition strain2 (gu gv gw : vec) : R :=
  2 * (vx gu ^ 2 + vy gv ^ 2 + vz gw ^ 2) + (vy gu + vx gv) ^ 2 + (vz gu + vx gw) ^ 2 + (vz gv + vy gw) ^ 2.
Lemma strain2_spec gu gv gw : strainMag gu gv gw ^ 2 = strain2 gu gv gw.
Proof.
  unfold strainMag, strain2. cbv zeta. rewrite pow2_sqrt; [field|].
  set (a := vx gu). set (b := vy gv). set (c := vz gw). set (e := 5/10 * (vy gu + vx gv)). set (f := 5/10 * (vz gu + vx gw)). set (g := 5/10 * (vz gv + vy gw)).
  pose proof (Rle_0_sqr a). pose proof (Rle_0_sqr b). pose proof (Rle_0_sqr c). pose proof (Rle_0_sqr e). pose proof (Rle_0_sqr f). pose proof (Rle_0_sqr g). unfold Rsqr in *. lra.
Qed.
Lemma cpow_pow x y n : 0 <= x -> (0 < n)%nat -> cpow x y ^ n = cpow x (y * INR n).
Proof.
  intros Hx Hn. unfold cpow. destruct (Req_EM_T x 0); [apply pow_i; lia|]. rewrite <- Rpower_pow by apply exp_pos. rewrite Rpower_mult. reflexivity.
Qed.
Lemma cpow_nat x n : 0 <= x -> (0 < n)%nat -> cpow x (INR n) = x ^ n.
Proof. intros Hx Hn. unfold cpow. destruct (Req_EM_T x 0) as [->|]; [symmetry; apply pow_i; lia|]. apply Rpower_pow. lra. Qed.
(** Smagorinsky: nu = (0.18)^2 V^(2/3) |S| *)
Theorem C75_smagorinsky_amount : forall d ng ne J rho cp G qt i j k, (ng - 1 <= i < ni d + ng)%Z -> (ng - 1 <= j < nj d + ng)%Z -> (ng - 1 <= k < nk d + ng)%Z ->
  0 <= J i j k -> exists nu, 0 <= nu /\ nu ^ 6 = (18/100) ^ 12 * J i j k ^ 4 * strain2 (G i j k 1%Z) (G i j k 2%Z) (G i j k 3%Z) ^ 3 /\
    addsViscosity ne (rho i j k) (cp i j k) nu (qt i j k) (smagorinsky d ng ne J rho cp G qt i j k).
Proof.
  intros d ng ne J rho cp G qt i j k Hi Hj Hk HJ. exists (smagorinskyNu (J i j k) (G i j k 1%Z) (G i j k 2%Z) (G i j k 3%Z)).
  split; [apply smagorinskyNu_nonneg|]. split.
  - unfold smagorinskyNu. cbv zeta. rewrite <- strain2_spec. set (s := strainMag _ _ _).
    assert (E : cpow (J i j k) (1/3) ^ 3 = J i j k).
    { rewrite cpow_pow by (auto; lia). replace (1/3 * INR 3) with (INR 1) by (cbn [INR]; field). rewrite cpow_nat by (auto; lia). ring. }
    set (e := cpow (J i j k) (1/3)) in *. rewrite <- E. ring.
  - unfold smagorinsky. replace (inSgs d ng i j k) with true; [apply addSgs_spec|]. symmetry. unfold inSgs. rewrite !andb_true_iff, !Z.leb_le, !Z.ltb_lt. lia.
Qed.
(** the discrete Laplacian of variable l over the six neighbouring cells *)
Definition laplacian (q : array4) (i j k l : Z) : R :=
  q (i+1)%Z j k l + q (i-1)%Z j k l + q i (j+1)%Z k l + q i (j-1)%Z k l + q i j (k+1)%Z l + q i j (k-1)%Z l - 6 * q i j k l.
Lemma filtered_laplacian q i j k l : filtered q i j k l = q i j k l + laplacian q i j k l / 12.
Proof. unfold filtered, laplacian. field. Qed.
(** mixed scale: nu = 0.06 |S|^(1/2) qc^(1/2) V^(1/2), qc^2 = half the squared distance of the velocity to its filter,
    which is a twelfth of the discrete Laplacian *)
Theorem C75_mixed_amount : forall d ng ne J rho cp G q qt i j k, (ng - 1 <= i < ni d + ng)%Z -> (ng - 1 <= j < nj d + ng)%Z -> (ng - 1 <= k < nk d + ng)%Z ->
  0 <= J i j k -> exists nu, 0 <= nu /\
    nu ^ 4 = (6/100) ^ 4 * strain2 (G i j k 1%Z) (G i j k 2%Z) (G i j k 3%Z) * J i j k ^ 2 *
             ((laplacian q i j k 1 ^ 2 + laplacian q i j k 2 ^ 2 + laplacian q i j k 3 ^ 2) / 288) /\
    addsViscosity ne (rho i j k) (cp i j k) nu (qt i j k) (mixedScaleModel d ng ne J rho cp G q qt i j k).
Proof.
  intros d ng ne J rho cp G q qt i j k Hi Hj Hk HJ. exists (mixedNu (J i j k) (G i j k 1%Z) (G i j k 2%Z) (G i j k 3%Z) q i j k).
  split; [apply mixedNu_nonneg|]. split.
  - unfold mixedNu. cbv zeta. rewrite <- strain2_spec. set (s := strainMag _ _ _). rewrite !filtered_laplacian.
    set (c := 5/10 * _).
    assert (EC : (laplacian q i j k 1 ^ 2 + laplacian q i j k 2 ^ 2 + laplacian q i j k 3 ^ 2) / 288 = c) by (unfold c; field). rewrite EC.
    assert (HC : 0 <= c) by (rewrite <- EC; pose proof (pow2_ge_0 (laplacian q i j k 1)); pose proof (pow2_ge_0 (laplacian q i j k 2)); pose proof (pow2_ge_0 (laplacian q i j k 3)); lra).
    assert (HS : 0 <= s) by apply strain_nonneg.
    assert (E1 : cpow s (5/10) ^ 4 = s ^ 2).
    { rewrite cpow_pow by (auto; lia). replace (5/10 * INR 4) with (INR 2) by (cbn [INR]; field). apply cpow_nat; auto. }
    assert (E2 : cpow c ((1 - 5/10)/2) ^ 4 = c).
    { rewrite cpow_pow by (auto; lia). replace ((1 - 5/10)/2 * INR 4) with (INR 1) by (cbn [INR]; field). rewrite cpow_nat by (auto; lia). ring. }
    assert (E3 : cpow (cpow (J i j k) (1/3)) (1 + 5/10) ^ 4 = J i j k ^ 2).
    { rewrite cpow_pow by (try lia; apply cpow_nonneg). replace ((1 + 5/10) * INR 4) with (INR 6) by (cbn [INR]; field). rewrite cpow_nat by (try lia; apply cpow_nonneg).
      rewrite cpow_pow by (auto; lia). replace (1/3 * INR 6) with (INR 2) by (cbn [INR]; field). apply cpow_nat; auto. }
    rewrite !Rpow_mult_distr, E1, E2, E3. ring.
  - unfold mixedScaleModel. replace (inSgs d ng i j k) with true; [apply addSgs_spec|]. symmetry. unfold inSgs. rewrite !andb_true_iff, !Z.leb_le, !Z.ltb_lt. lia.
Qed.
(** so the mixed model adds nothing where the three velocity components vary linearly along each grid line, however strained *)
Theorem C75_mixed_nothing_when_linear : forall d ng ne J rho cp G q qt i j k l,
  (forall m, (1 <= m <= 3)%Z -> q (i+1)%Z j k m + q (i-1)%Z j k m = 2 * q i j k m /\ q i (j+1)%Z k m + q i (j-1)%Z k m = 2 * q i j k m /\
     q i j (k+1)%Z m + q i j (k-1)%Z m = 2 * q i j k m) ->
  mixedScaleModel d ng ne J rho cp G q qt i j k l = qt i j k l.
Proof.
  intros d ng ne J rho cp G q qt i j k l H. unfold mixedScaleModel. destruct (inSgs d ng i j k); auto.
  assert (E : forall m, (1 <= m <= 3)%Z -> q i j k m - filtered q i j k m = 0).
  { intros m Hm. rewrite filtered_laplacian. unfold laplacian. destruct (H m Hm) as (A & B & C). lra. }
  replace (mixedNu _ _ _ _ _ _ _ _) with 0; [apply addSgs_zero|]. unfold mixedNu. cbv zeta. rewrite !E by lia.
  replace (5/10 * (0 ^ 2 + 0 ^ 2 + 0 ^ 2)) with 0 by ring. unfold cpow at 2. destruct (Req_EM_T 0 0) as [_|N]; [|now elim N]. ring.
Qed.
(** and cells outside the range are untouched *)
Theorem C75_elsewhere_untouched : forall d ng ne J rho cp G q qt i j k l,
  ~ ((ng - 1 <= i < ni d + ng) /\ (ng - 1 <= j < nj d + ng) /\ (ng - 1 <= k < nk d + ng))%Z ->
  smagorinsky d ng ne J rho cp G qt i j k l = qt i j k l /\ mixedScaleModel d ng ne J rho cp G q qt i j k l = qt i j k l.
Proof.
  intros d ng ne J rho cp G q qt i j k l H. unfold smagorinsky, mixedScaleModel. destruct (inSgs d ng i j k) eqn:E; auto.
  exfalso. apply H. unfold inSgs in E. rewrite !andb_true_iff, !Z.leb_le, !Z.ltb_lt in E. lia.
Qed.
(** the filter of the mixed model reads the six neighbours of every cell it treats; they are cells of the block (of which
    there are ni + 2 ng - 1 per direction) exactly when there are at least two halo layers *)
Theorem C75_filter_in_bounds : forall d ng, (1 <= ni d)%Z -> (1 <= ng)%Z -> 
  ((forall i, (ng - 1 <= i < ni d + ng)%Z -> (0 <= i - 1)%Z /\ (i + 1 < ni d + 2 * ng - 1)%Z) <-> (2 <= ng)%Z).
Proof.
  intros d ng Hn Hg. split; [|intros; lia]. intros H. specialize (H (ng - 1)%Z ltac:(lia)). lia.
Qed.
Example C75_nonvacuous : rigid (0, -1, 0) (1, 0, 0) vzero /\ ~ rigid (0, 1, 0) vzero vzero.
Proof. unfold rigid, vzero, vx, vy, vz. cbn [fst snd]. split; [repeat split; lra|]. intros (_ & _ & _ & H & _). lra. Qed.
Print Assumptions C75_never_reduces.
Print Assumptions C75_mixed_amount.
