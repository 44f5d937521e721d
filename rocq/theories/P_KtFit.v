(** C147: the tables of the kinetic-theory transport model. *)
From Coq Require Import Reals ZArith List Bool Lia Lra Psatz.
From Verif Require Import M_Topology M_Halo M_Grid M_Thermo M_Transport S_Transport P_Transport M_KtFit S_KtFit L_KtFit.
Import ListNotations.
Open Scope R_scope.

Local Opaque PI.
Lemma xi_induction k p n : goodConst k -> plausible p -> plausible n -> xiRead k (sqrt (sDipole p * sDipole p)) p n = induction k p n.
Proof.
  intros (_ & E0 & _) (_ & W & D & M & _) _. unfold xiRead, induction. rewrite sqrt_square by auto.
  assert (X : 0 < 4 * PI * c_eps0 k * sDiam p ^ 3 * sWell p) by (pose proof PI_RGT_0; repeat apply Rmult_lt_0_compat; try lra; apply pow_lt; auto).
  set (X0 := 4 * PI * c_eps0 k * sDiam p ^ 3 * sWell p) in *.
  replace ((sDipole p / sqrt X0) ^ 2) with (sDipole p ^ 2 / X0); [reflexivity|].
  unfold Rdiv. rewrite Rpow_mult_distr, pow_inv. rewrite pow2_sqrt by lra. reflexivity.
Qed.
Lemma induction_ge1 k p n : goodConst k -> plausible p -> plausible n -> 1 <= induction k p n.
Proof.
  intros (_ & E0 & _) (_ & W & D & M & _) (_ & Wn & Dn & _ & Pn). unfold induction. pose proof PI_RGT_0.
  assert (X : 0 < 4 * PI * c_eps0 k * sDiam p ^ 3 * sWell p) by (repeat apply Rmult_lt_0_compat; try lra; apply pow_lt; auto).
  assert (0 <= sPolarize n / sDiam n ^ 3) by (apply Rmult_le_pos; [auto|]; apply Rlt_le, Rinv_0_lt_compat, pow_lt; auto).
  assert (0 <= sDipole p ^ 2 / (4 * PI * c_eps0 k * sDiam p ^ 3 * sWell p)) by (apply Rmult_le_pos; [apply pow2_ge_0|]; apply Rlt_le, Rinv_0_lt_compat; auto).
  assert (0 <= 1 / 4 * (sPolarize n / sDiam n ^ 3) * (sDipole p ^ 2 / (4 * PI * c_eps0 k * sDiam p ^ 3 * sWell p)) * sqrt (sWell p / sWell n)) by (apply Rmult_le_pos; [apply Rmult_le_pos; [apply Rmult_le_pos; [lra|auto]|auto]|apply sqrt_pos]). lra.
Qed.
Lemma induction_gt1 k p n : goodConst k -> plausible p -> plausible n -> 0 < sDipole p -> 0 < sPolarize n -> 1 < induction k p n.
Proof.
  intros (_ & E0 & _) (_ & W & D & M & _) (_ & Wn & Dn & _ & Pn) Mp Pp. unfold induction. pose proof PI_RGT_0.
  assert (X : 0 < 4 * PI * c_eps0 k * sDiam p ^ 3 * sWell p) by (repeat apply Rmult_lt_0_compat; try lra; apply pow_lt; auto).
  assert (0 < sPolarize n / sDiam n ^ 3) by (apply Rdiv_lt_0_compat; [auto|]; apply pow_lt; auto).
  assert (0 < sDipole p ^ 2 / (4 * PI * c_eps0 k * sDiam p ^ 3 * sWell p)) by (apply Rdiv_lt_0_compat; [apply pow_lt; auto|]; auto).
  assert (0 < sqrt (sWell p / sWell n)) by (apply sqrt_lt_R0, Rdiv_lt_0_compat; auto).
  assert (0 < 1 / 4 * (sPolarize n / sDiam n ^ 3) * (sDipole p ^ 2 / (4 * PI * c_eps0 k * sDiam p ^ 3 * sWell p)) * sqrt (sWell p / sWell n)) by (apply Rmult_lt_0_compat; [apply Rmult_lt_0_compat; [apply Rmult_lt_0_compat; [lra|auto]|auto]|auto]). lra.
Qed.
Lemma mass_pair k a b : goodConst k -> plausible a -> plausible b -> mMass k a * mMass k b / (mMass k a + mMass k b) = pairMass k a b.
Proof. intros (_ & _ & A & _) (M & _) (N & _). unfold mMass, pairMass. field. split; lra. Qed.
(** what is stored for a pair of species listed i before j, in general: the polar correction is made only if the polar one is listed first *)
Lemma stored k ns sp i j : goodConst k -> (forall n, (0 <= n < ns)%Z -> plausible (sp n)) -> (0 <= i <= j)%Z -> (j < ns)%Z ->
  let c := collisions k ns sp in let f := if isPolar (sp i) then polarFactor k (sp i) (sp j) else 1 in
  rMass c i j = pairMass k (sp i) (sp j) /\ rWell c i j = sqrt (sWell (sp i) * sWell (sp j)) * f ^ 2 /\ rDiam c i j = (sDiam (sp i) + sDiam (sp j)) / 2 * Rpower f (- (1 / 6)) /\
  rMass c j i = rMass c i j /\ rWell c j i = rWell c i j /\ rDiam c j i = rDiam c i j /\ rDelta c j i = rDelta c i j.
Proof.
  intros K P I J. cbv zeta. destruct (collisions_holds k sp ns i j I J) as (H1 & H2 & H3 & _ & _ & H6 & H7 & H8 & _ & H10).
  assert (Pi := P i ltac:(lia)). assert (Pj := P j ltac:(lia)).
  assert (F : factorRead k (sqrt (sDipole (sp i) * sDipole (sp i))) 0 (sp i) (sp j) = if isPolar (sp i) then polarFactor k (sp i) (sp j) else 1).
  { unfold factorRead, polarFactor. destruct (isPolar (sp i)), (isPolar (sp j)); cbn [Bool.eqb]; auto; [now apply xi_induction|].
    unfold xiRead. match goal with |- context [(0 / ?x)] => replace (0 / x) with 0 by (unfold Rdiv; ring) end. ring. }
  rewrite F in H2, H3. rewrite mass_pair in H1 by auto. split; [exact H1|]. split; [exact H2|]. split; [rewrite H3; f_equal; lra|]. auto.
Qed.
(** * the collision parameters of a pair are those of Monchick and Mason when both species are polar, neither is, or the polar one is listed first *)
Theorem C147_collision_parameters : forall k ns sp i j, goodConst k -> (forall n, (0 <= n < ns)%Z -> plausible (sp n)) -> (0 <= i <= j)%Z -> (j < ns)%Z ->
  ~ (sDipole (sp i) = 0 /\ 0 < sDipole (sp j)) -> let c := collisions k ns sp in
  rMass c i j = pairMass k (sp i) (sp j) /\ rWell c i j = pairWell k (sp i) (sp j) /\ rDiam c i j = pairDiam k (sp i) (sp j) /\
  rMass c j i = pairMass k (sp j) (sp i) /\ rWell c j i = pairWell k (sp j) (sp i) /\ rDiam c j i = pairDiam k (sp j) (sp i).
Proof.
  intros k ns sp i j K P I J O. cbv zeta. destruct (stored k ns sp i j K P I J) as (H1 & H2 & H3 & H4 & H5 & H6 & _). cbv zeta in *.
  assert (F : (if isPolar (sp i) then polarFactor k (sp i) (sp j) else 1) = polarFactor k (sp i) (sp j)).
  { unfold polarFactor, isPolar. destruct (P i ltac:(lia)) as (_ & _ & _ & Di & _). destruct (Rlt_dec 0 (sDipole (sp i))); [reflexivity|]. destruct (Rlt_dec 0 (sDipole (sp j))); [|reflexivity]. exfalso. apply O. split; lra. }
  rewrite F in H2, H3.
  assert (Sy : polarFactor k (sp j) (sp i) = polarFactor k (sp i) (sp j)) by (unfold polarFactor; destruct (isPolar (sp i)), (isPolar (sp j)); reflexivity).
  assert (Sm : pairMass k (sp j) (sp i) = pairMass k (sp i) (sp j)) by (unfold pairMass; f_equal; f_equal; ring).
  split; [exact H1|]. split; [exact H2|]. split; [exact H3|]. unfold pairWell, pairDiam. rewrite H4, H5, H6, Sm, Sy, H1, H2, H3. rewrite (Rmult_comm (sWell (sp j))), (Rplus_comm (sDiam (sp j))). auto.
Qed.
(** but not when the polar one comes second: then the well of the pair is too shallow and its diameter too large, so the same two gases have different tables in the two orders *)
Theorem C147_order_refuted : forall k a b, goodConst k -> plausible a -> plausible b -> 0 < sDipole a -> sDipole b = 0 -> 0 < sPolarize b ->
  let ab := collisions k 2 (two a b) in let ba := collisions k 2 (two b a) in
  rWell ab 0%Z 1%Z = pairWell k a b /\ rWell ba 0%Z 1%Z < pairWell k a b /\ rDiam ab 0%Z 1%Z = pairDiam k a b /\ pairDiam k a b < rDiam ba 0%Z 1%Z /\
  forall T, diff k 2 (two b a) (fun _ _ => 1) (fun _ _ => 1) T 0%Z 1%Z < diff k 2 (two a b) (fun _ _ => 1) (fun _ _ => 1) T 0%Z 1%Z.
Proof.
  intros k a b K Pa Pb Da Db Pl. cbv zeta.
  assert (Q1 : forall n, (0 <= n < 2)%Z -> plausible (two a b n)) by (intros n N; unfold two; destruct (n =? 0)%Z; auto).
  assert (Q2 : forall n, (0 <= n < 2)%Z -> plausible (two b a n)) by (intros n N; unfold two; destruct (n =? 0)%Z; auto).
  destruct (C147_collision_parameters k 2 (two a b) 0 1 K Q1 ltac:(lia) ltac:(lia)) as (A1 & A2 & A3 & B1 & B2 & B3); [unfold two; cbn [Z.eqb]; intros [E _]; lra|].
  destruct (stored k 2 (two b a) 0 1 K Q2 ltac:(lia) ltac:(lia)) as (C1 & C2 & C3 & E1 & E2 & E3 & _). cbv zeta in *.
  change (two a b 0%Z) with a in *. change (two a b 1%Z) with b in *. change (two b a 0%Z) with b in *. change (two b a 1%Z) with a in *.
  assert (Nb : isPolar b = false) by (unfold isPolar; destruct (Rlt_dec 0 (sDipole b)); [lra|reflexivity]). assert (Ya : isPolar a = true) by (unfold isPolar; destruct (Rlt_dec 0 (sDipole a)); [reflexivity|lra]).
  rewrite Nb in C2, C3. rewrite pow1, Rmult_1_r in C2. rewrite Rpower_1', Rmult_1_r in C3.
  pose proof (induction_gt1 k a b K Pa Pb Da Pl) as X.
  assert (W : sqrt (sWell b * sWell a) < pairWell k a b).
  { unfold pairWell, polarFactor. rewrite Ya, Nb, (Rmult_comm (sWell a)). destruct Pa as (_ & Wa & _), Pb as (_ & Wb & _). assert (0 < sqrt (sWell b * sWell a)) by (apply sqrt_lt_R0, Rmult_lt_0_compat; auto).
    rewrite <- (Rmult_1_r (sqrt _)) at 1. apply Rmult_lt_compat_l; [auto|]. replace (induction k a b ^ 2) with (induction k a b * induction k a b) by ring. rewrite <- (Rmult_1_r 1). apply Rmult_le_0_lt_compat; lra. }
  assert (Rp : 0 < Rpower (induction k a b) (- (1 / 6)) < 1).
  { split; [apply exp_pos|]. apply Rlt_le_trans with (Rpower (induction k a b) 0); [apply Rpower_lt; lra|rewrite Rpower_O; lra]. }
  assert (G : 0 < pairDiam k a b < (sDiam b + sDiam a) / 2).
  { unfold pairDiam, polarFactor. rewrite Ya, Nb. destruct Pa as (_ & _ & Xa & _), Pb as (_ & _ & Xb & _). split; [apply Rmult_lt_0_compat; lra|]. rewrite (Rplus_comm (sDiam b)). nra. }
  split; [exact A2|]. split; [rewrite C2; exact W|]. split; [exact A3|]. split; [rewrite C3; apply G|].
  intros T. unfold diff. cbv zeta. rewrite E3, C3, C1, A1, B3. unfold pairDiam. 
  assert (Sd : pairDiam k b a = pairDiam k a b) by (unfold pairDiam, polarFactor; rewrite Ya, Nb, (Rplus_comm (sDiam b)); reflexivity).
  assert (Sm : pairMass k b a = pairMass k a b) by (unfold pairMass; f_equal; f_equal; ring).
  fold (pairDiam k b a). rewrite Sd, Sm. replace (1 / 1) with 1 by field. rewrite !Rmult_1_r.
  assert (Mp : 0 < pairMass k a b). { unfold pairMass. destruct K as (_ & _ & Av & _), Pa as (Ma & _), Pb as (Mb & _). apply Rdiv_lt_0_compat; [|auto]. apply Rdiv_lt_0_compat; [apply Rmult_lt_0_compat; auto|lra]. }
  assert (Num : 0 < 3 / 16 * sqrt (2 * PI / pairMass k a b) * Rpower (c_kb k * T) (3 / 2)).
  { pose proof PI_RGT_0. repeat apply Rmult_lt_0_compat; try lra; [apply sqrt_lt_R0, Rdiv_lt_0_compat; lra|apply exp_pos]. }
  set (num := 3 / 16 * sqrt (2 * PI / pairMass k a b) * Rpower (c_kb k * T) (3 / 2)) in *. clearbody num. pose proof PI_RGT_0.
  revert G. generalize (pairDiam k a b) ((sDiam b + sDiam a) / 2). intros x y [Gx Gy].
  apply Rmult_lt_compat_l; [exact Num|].
  assert (Sx : x ^ 2 < y ^ 2) by (simpl; rewrite !Rmult_1_r; apply Rmult_le_0_lt_compat; lra). assert (0 < x ^ 2) by (apply pow_lt; lra).
  apply Rinv_lt_contravar; [apply Rmult_lt_0_compat; apply Rmult_lt_0_compat; lra|]. apply Rmult_lt_compat_l; lra.
Qed.

(** * positivity *)
Theorem C147_positive : forall k ns sp o22 astar T, goodConst k -> (forall n, (0 <= n < ns)%Z -> plausible (sp n)) -> (forall x y, 0 < o22 x y) -> (forall x y, 0 < astar x y) -> 0 < T ->
  (forall n, (0 <= n < ns)%Z -> 0 < visc k ns sp o22 T n) /\ (forall n j, (0 <= n <= j)%Z -> (j < ns)%Z -> 0 < diff k ns sp o22 astar T n j).
Proof.
  intros k ns sp o22 astar T K P O A HT. pose proof PI_RGT_0 as Pi. pose proof K as (Kb & _ & Av & _). split.
  - intros n N. destruct (P n N) as (M & W & D & _). unfold visc, mMass. apply Rdiv_lt_0_compat.
    + apply Rmult_lt_0_compat; [lra|]. apply sqrt_lt_R0. repeat apply Rmult_lt_0_compat; auto. now apply Rinv_0_lt_compat.
    + repeat apply Rmult_lt_0_compat; auto; try lra; apply pow_lt; auto.
  - intros n j N J. destruct (stored k ns sp n j K P N J) as (H1 & _ & H3 & _ & _ & H6 & _). cbv zeta in *. unfold diff. cbv zeta. rewrite H6, H3, H1.
    destruct (P n ltac:(lia)) as (M & _ & D & _). destruct (P j ltac:(lia)) as (M' & _ & D' & _).
    assert (Q : 0 < pairMass k (sp n) (sp j)) by (unfold pairMass; repeat apply Rdiv_lt_0_compat; auto; [apply Rmult_lt_0_compat; auto|lra]).
    apply Rdiv_lt_0_compat.
    + repeat apply Rmult_lt_0_compat; try lra; [apply sqrt_lt_R0, Rdiv_lt_0_compat; lra|apply exp_pos].
    + apply Rmult_lt_0_compat; [|apply Rdiv_lt_0_compat; auto]. apply Rmult_lt_0_compat; [lra|]. apply pow_lt, Rmult_lt_0_compat; [lra|apply exp_pos].
Qed.

(** * the kernels' polynomials give the sampled values back: if the fitted quantities lie on quartics of ln T, the species values that the kernels form from the tables are, at the
    50 sampled temperatures, the kinetic-theory values *)
Lemma sample_pos T : In T samples -> 0 < T.
Proof.
  unfold samples. intros I. apply in_map_iff in I as (i & <- & H). apply L_Halo1.zrange_in in H. unfold sampleT, linspace. change (50 <=? 1)%Z with false. cbv iota.
  destruct (Z.eqb_spec i (50 - 1)); [lra|]. assert (0 <= IZR i) by (apply IZR_le; lia). change (IZR (50 - 1)) with 49. assert (0 <= IZR i * ((5000 - 200) / 49)) by (apply Rmult_le_pos; lra). lra.
Qed.
Definition onQuartic (y : R -> R) : Prop := exists c, length c = 5%nat /\ forall T, In T samples -> y T = quarticDown c (ln T).
Theorem C147_reproduced : forall k ns sp eos o22 astar fit, goodConst k -> (forall n, (0 <= n < ns)%Z -> plausible (sp n)) -> (forall x y, 0 < o22 x y) -> (forall x y, 0 < astar x y) -> leastSquares fit ->
  let t := ktTables k ns sp eos o22 astar fit in forall T, In T samples ->
  (forall n, (0 <= n < ns)%Z -> onQuartic (fun T => sqrt (visc k ns sp o22 T n / sqrt T)) -> speciesMu t T n = visc k ns sp o22 T n) /\
  (forall n, (0 <= n < ns)%Z -> onQuartic (fun T => cond k ns sp eos o22 astar T n / sqrt T) -> (forall T, In T samples -> cond k ns sp eos o22 astar T n <> 0) ->
     speciesKappa t T n = cond k ns sp eos o22 astar T n) /\
  (forall n j slot, (0 <= n <= j)%Z -> (j < ns)%Z -> holdsPair ns slot n j -> onQuartic (fun T => diff k ns sp o22 astar T n j / Rpower T (3 / 2)) ->
     binaryD t slot T = diff k ns sp o22 astar T n j).
Proof.
  intros k ns sp eos o22 astar fit K P O A LS t T I. pose proof (sample_pos T I) as HT. assert (Q : 0 < sqrt T) by (apply sqrt_lt_R0; auto).
  assert (V : forall T n, 0 < T -> (0 <= n < ns)%Z -> 0 < visc k ns sp o22 T n) by (intros; now apply (C147_positive k ns sp o22 astar)).
  assert (D : forall T n j, 0 < T -> (0 <= n <= j)%Z -> (j < ns)%Z -> 0 < diff k ns sp o22 astar T n j) by (intros; now apply (C147_positive k ns sp o22 astar)).
  split; [|split].
  - intros n N C. unfold speciesMu, t, ktTables. cbn [kMuPoly]. unfold muFit. rewrite (fit_exact fit _ LS C); [|intros T' I'; apply Rgt_not_eq, sqrt_lt_R0, Rdiv_lt_0_compat; [apply V; auto; now apply sample_pos|apply sqrt_lt_R0; now apply sample_pos]|exact I].
    rewrite Rpow_mult_distr, pow2_sqrt, pow2_sqrt; [field; lra|lra|]. apply Rlt_le, Rdiv_lt_0_compat; auto.
  - intros n N C Nz. unfold speciesKappa, t, ktTables. cbn [kKappaPoly]. unfold kappaFit. rewrite (fit_exact fit _ LS C); [field; lra| |exact I].
    intros T' I'. apply Rmult_integral_contrapositive_currified; [now apply Nz|apply Rinv_neq_0_compat, Rgt_not_eq, sqrt_lt_R0; now apply sample_pos].
  - intros n j slot N J [Hs Hn] C. unfold binaryD, t, ktTables. cbn [kDijPoly]. rewrite Hn. cbn [fst snd]. unfold dijFit. rewrite (fit_exact fit _ LS C); [| |exact I].
    + replace (Rpower T (3 / 2)) with (T * sqrt T); [field; split; lra|]. replace (3 / 2) with (1 + / 2) by field. rewrite Rpower_plus, Rpower_1, Rpower_sqrt by auto. reflexivity.
    + intros T' I'. apply Rgt_not_eq, Rdiv_lt_0_compat; [apply D; auto; now apply sample_pos|apply exp_pos].
Qed.

(** * the heat capacity in the conductivity is that of the equation of state, for the thermally perfect and cubic gases *)
Theorem C147_heat_capacity : forall k th n s T, Ru th <> 0 -> MW th n <> 0 -> c_Ru k = Ru th -> sMW s = MW th n -> (forall m, sNasa s m = NASA7 th n m) ->
  cpR k Tpg s T = nasaCp th n T * MW th n / Ru th.
Proof.
  intros k th n s T R0 M0 Er Em En. unfold cpR, nasaCp, nasaM. rewrite En. change (zrange 0 5) with [0; 1; 2; 3; 4]%Z. cbn [fold_left].
  destruct (Rle_dec T (NASA7 th n 0%Z)); rewrite !En; cbv beta zeta; repeat match goal with |- context [NASA7 th n ?z] => let w := eval vm_compute in z in progress change z with w end; change (Z.to_nat 0) with 0%nat; change (Z.to_nat 1) with 1%nat; change (Z.to_nat 2) with 2%nat; change (Z.to_nat 3) with 3%nat; change (Z.to_nat 4) with 4%nat; field; auto.
Qed.
(** for the calorically perfect gas it is not: the temperature is where the molecular weight should be squared *)
Theorem C147_heat_capacity_refuted : forall k s T, goodConst k -> plausible s -> 0 < sCp0 s -> T <> sMW s ^ 2 -> cpR k Cpg s T <> sCp0 s * sMW s / c_Ru k.
Proof.
  intros k s T (_ & _ & _ & R0) (M & _) C N E. apply N. unfold cpR in E. apply Rmult_eq_reg_l with (sCp0 s / (c_Ru k * sMW s)); [|apply Rgt_not_eq, Rdiv_lt_0_compat; auto; apply Rmult_lt_0_compat; auto].
  transitivity (sCp0 s * T / (c_Ru k * sMW s)); [field; split; lra|]. rewrite E. field. split; lra.
Qed.
(** a gas of atoms conducts by the law of Eucken, kappa = 15/4 (Ru/MW) mu, exactly when the heat capacity is 5/2 R: true for the first model, and false of the second for the physical cp0 *)
Theorem C147_monatomic : forall k ns sp eos o22 astar T n, goodConst k -> (forall m, (0 <= m < ns)%Z -> plausible (sp m)) -> (forall x y, 0 < o22 x y) -> (forall x y, 0 < astar x y) -> 0 < T ->
  (0 <= n < ns)%Z -> sShape (sp n) = Atom ->
  (cond k ns sp eos o22 astar T n = 15 / 4 * (c_Ru k / sMW (sp n)) * visc k ns sp o22 T n <-> cpR k eos (sp n) T = 5 / 2).
Proof.
  intros k ns sp eos o22 astar T n K P O A HT N At.
  pose proof (proj1 (C147_positive k ns sp o22 astar T K P O A HT) n N) as V. destruct (P n N) as (M & W & D & _). pose proof K as (Kb & _ & Av & R0).
  destruct (stored k ns sp n n K P ltac:(lia) ltac:(lia)) as (Hm & _). cbv zeta in Hm. unfold cond. cbv zeta. rewrite At, Hm. unfold rotDOF.
  assert (Qm : 0 < pairMass k (sp n) (sp n)) by (unfold pairMass; repeat apply Rdiv_lt_0_compat; auto; [apply Rmult_lt_0_compat; auto|lra]).
  set (ts := T * c_kb k / sWell (sp n)). set (o := o22 ts _). set (as_ := astar ts _).
  set (dc := 3 / 16 * sqrt (2 * PI / pairMass k (sp n) (sp n)) * Rpower (c_kb k * T) (3 / 2) / (PI * sDiam (sp n) ^ 2 * (o / as_))).
  assert (Dc : 0 < dc).
  { pose proof PI_RGT_0. unfold dc. apply Rdiv_lt_0_compat; [repeat apply Rmult_lt_0_compat; try lra; [apply sqrt_lt_R0, Rdiv_lt_0_compat; lra|apply exp_pos]|].
    apply Rmult_lt_0_compat; [apply Rmult_lt_0_compat; [lra|apply pow_lt; auto]|apply Rdiv_lt_0_compat; [apply O|apply A]]. }
  set (v := visc k ns sp o22 T n) in *. set (fint := sMW (sp n) / (c_Ru k * T) * dc / v).
  assert (F : 0 < fint) by (unfold fint; apply Rdiv_lt_0_compat; auto; apply Rmult_lt_0_compat; auto; apply Rdiv_lt_0_compat; auto; apply Rmult_lt_0_compat; auto).
  set (c1 := 2 / PI * (5 / 2 - fint) / _). clearbody c1 fint v.
  assert (E : v / sMW (sp n) * c_Ru k * (5 / 2 * (1 - c1 * 0 / (3 / 2)) * (3 / 2) + fint * (1 + c1) * 0 + fint * (cpR k eos (sp n) T - 5 / 2 - 0)) =
              15 / 4 * (c_Ru k / sMW (sp n)) * v + v / sMW (sp n) * c_Ru k * fint * (cpR k eos (sp n) T - 5 / 2)) by (field; lra).
  rewrite E. assert (G : 0 < v / sMW (sp n) * c_Ru k * fint) by (repeat apply Rmult_lt_0_compat; auto; apply Rinv_0_lt_compat; auto). split.
  - intros H. assert (Z0 : v / sMW (sp n) * c_Ru k * fint * (cpR k eos (sp n) T - 5 / 2) = 0) by lra. apply Rmult_integral in Z0 as [Z0|Z0]; lra.
  - intros ->. lra.
Qed.
(** the hypotheses can be met: water and nitrogen like species *)
Example C147_nonvacuous : let k := mkKc 1 1 1 1 in let w := mkSp 18 1 1 1 1 4 Nonlinear 2 (fun _ => 0) in let n2 := mkSp 28 1 1 0 1 4 Linear 1 (fun _ => 0) in
  goodConst k /\ plausible w /\ plausible n2 /\ 0 < sDipole w /\ sDipole n2 = 0 /\ 0 < sPolarize n2 /\ (forall n, (0 <= n < 2)%Z -> plausible (two w n2 n)) /\
  rWell (collisions k 2 (two n2 w)) 0%Z 1%Z < rWell (collisions k 2 (two w n2)) 0%Z 1%Z.
Proof.
  cbv zeta. set (k := mkKc 1 1 1 1). set (w := mkSp 18 1 1 1 1 4 Nonlinear 2 (fun _ => 0)). set (n2 := mkSp 28 1 1 0 1 4 Linear 1 (fun _ => 0)).
  assert (K : goodConst k) by (unfold goodConst, k; cbn; lra). assert (Pw : plausible w) by (unfold plausible, w; cbn; lra). assert (Pn : plausible n2) by (unfold plausible, n2; cbn; lra).
  assert (D : 0 < sDipole w) by (cbn; lra). assert (D0 : sDipole n2 = 0) by reflexivity. assert (Pp : 0 < sPolarize n2) by (cbn; lra).
  split; [auto|split; [auto|split; [auto|split; [auto|split; [auto|split; [auto|split]]]]]].
  - intros n N. unfold two. destruct (n =? 0)%Z; auto.
  - destruct (C147_order_refuted k w n2 K Pw Pn D D0 Pp) as (E & L & _). rewrite E. exact L.
Qed.
Print Assumptions C147_collision_parameters.
Print Assumptions C147_order_refuted.
Print Assumptions C147_positive.
Print Assumptions C147_reproduced.
Print Assumptions C147_heat_capacity.
Print Assumptions C147_heat_capacity_refuted.
Print Assumptions C147_monatomic.
