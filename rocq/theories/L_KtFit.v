(** Lemmas for C147. *)
From Coq Require Import Reals ZArith List Bool Lia Lra Psatz.
From Verif Require Import M_Topology M_Halo M_Grid M_Thermo M_Transport S_Transport M_KtFit S_KtFit L_Halo1 L_Transport.
Import ListNotations.
Open Scope R_scope.

Lemma zrange_split a m b : (a <= m < b)%Z -> zrange a b = zrange a m ++ m :: zrange (m + 1) b.
Proof.
  intros H. unfold zrange. replace (Z.to_nat (b - a)) with (Z.to_nat (m - a) + S (Z.to_nat (b - (m + 1))))%nat by lia.
  rewrite seq_app, map_app. f_equal. cbn [seq map]. f_equal; [lia|].
  rewrite <- seq_shift, map_map. replace (S (0 + Z.to_nat (m - a))) with (0 + S (Z.to_nat (m - a)))%nat by lia.
  revert H. generalize (Z.to_nat (b - (m + 1))). intros n H.
  assert (G : forall q s, (forall i, a + Z.of_nat (S (i + q)) = m + 1 + Z.of_nat (i + s))%Z -> map (fun x => (a + Z.of_nat (S x))%Z) (seq q n) = map (fun i => (m + 1 + Z.of_nat i)%Z) (seq s n)).
  { induction n as [|n IH]; intros q s Q; [reflexivity|]. cbn [seq map]. f_equal; [specialize (Q 0%nat); cbn [Nat.add] in Q; lia|]. apply IH. intros i. specialize (Q (S i)). rewrite !Nat.add_succ_r. rewrite !Nat.add_succ_l in Q. lia. }
  apply G. intros i. lia.
Qed.
Definition before (ns a b : Z) : list (Z * Z) := flat_map (fun k => map (fun j => (k, j)) (zrange k ns)) (zrange 0 a) ++ map (fun j => (a, j)) (zrange a b).
Definition after (ns a b : Z) : list (Z * Z) := map (fun j => (a, j)) (zrange (b + 1) ns) ++ flat_map (fun k => map (fun j => (k, j)) (zrange k ns)) (zrange (a + 1) ns).
Lemma rows_split ns a b : (0 <= a <= b)%Z -> (b < ns)%Z -> dijRows ns = before ns a b ++ (a, b) :: after ns a b.
Proof.
  intros H B. unfold dijRows, before, after. rewrite (zrange_split 0 a ns) by lia. rewrite flat_map_app. cbn [flat_map]. rewrite (zrange_split a b ns) by lia.
  rewrite map_app. cbn [map]. rewrite <- !app_assoc. reflexivity.
Qed.
Lemma before_in ns a b x y : (0 <= a <= b)%Z -> In (x, y) (before ns a b) <-> ((0 <= x < a /\ x <= y < ns) \/ (x = a /\ a <= y < b))%Z.
Proof.
  intros H. unfold before. rewrite in_app_iff, in_flat_map, in_map_iff. split.
  - intros [(k & K & I)|(j & E & I)].
    + apply in_map_iff in I as (j & E & J). injection E as -> ->. apply zrange_in in K. apply zrange_in in J. left. lia.
    + injection E as -> ->. apply zrange_in in I. right. lia.
  - intros [[A B]|[-> B]].
    + left. exists x. split; [apply zrange_in; lia|]. apply in_map_iff. exists y. split; [reflexivity|apply zrange_in; lia].
    + right. exists y. split; [reflexivity|apply zrange_in; lia].
Qed.
Lemma after_in ns a b x y : (0 <= a <= b)%Z -> In (x, y) (after ns a b) -> ((x = a /\ b < y) \/ (a < x /\ x <= y))%Z.
Proof.
  intros H. unfold after. rewrite in_app_iff, in_map_iff, in_flat_map. intros [(j & E & I)|(k & K & I)].
  - injection E as -> ->. apply zrange_in in I. left. lia.
  - apply in_map_iff in I as (j & E & J). injection E as -> ->. apply zrange_in in K. apply zrange_in in J. right. lia.
Qed.
Lemma set2_same f i j v : set2 f i j v i j = v. Proof. unfold set2. now rewrite !Z.eqb_refl. Qed.
Lemma set2_other f i j v a b : ~ (a = i /\ b = j)%Z -> set2 f i j v a b = f a b.
Proof. unfold set2. destruct (Z.eqb_spec a i), (Z.eqb_spec b j); cbn [andb]; intros H; auto. exfalso. apply H. auto. Qed.
Lemma setSym_same f i j v : setSym f i j v i j = v /\ setSym f i j v j i = v.
Proof.
  unfold setSym. split; [|apply set2_same]. destruct (Z.eq_dec i j) as [->|N]; [apply set2_same|]. rewrite set2_other by lia. apply set2_same.
Qed.
Lemma setSym_other f i j v a b : ~ (a = i /\ b = j)%Z -> ~ (a = j /\ b = i)%Z -> setSym f i j v a b = f a b.
Proof. intros H K. unfold setSym. now rewrite !set2_other. Qed.

Section Coll.
Variable k : ktConst.
Variable sp : Z -> ktSp.
Let stepAll := fold_left (fun c ij => collStep k sp c (fst ij) (snd ij)).
(** the parameters one pass stores, given what the matrix of dipoles held *)
Definition xiRead (dkk : R) (p n : ktSp) : R :=
  1 + 1 / 4 * (sPolarize n / sDiam n ^ 3) * (dkk / sqrt (4 * PI * c_eps0 k * sDiam p ^ 3 * sWell p)) ^ 2 * sqrt (sWell p / sWell n).
Definition factorRead (da db : R) (a b : ktSp) : R :=
  if Bool.eqb (isPolar a) (isPolar b) then 1 else if isPolar a then xiRead da a b else xiRead db b a.
Definition delta0 (a b : ktSp) : R := 1 / 2 * sqrt (sDipole a * sDipole b) ^ 2 / (4 * PI * c_eps0 k * sqrt (sWell a * sWell b) * (1 / 2 * (sDiam a + sDiam b)) ^ 3).
Definition holds (c : coll) (i j : Z) (f : R) : Prop :=
  let a := sp i in let b := sp j in
  (rMass c i j = mMass k a * mMass k b / (mMass k a + mMass k b)) /\ rWell c i j = sqrt (sWell a * sWell b) * f ^ 2 /\
  (rDiam c i j = 1 / 2 * (sDiam a + sDiam b) * Rpower f (- (1 / 6))) /\ rDip c i j = sqrt (sDipole a * sDipole b) /\ rDelta c i j = delta0 a b /\
  rMass c j i = rMass c i j /\ rWell c j i = rWell c i j /\ rDiam c j i = rDiam c i j /\ rDip c j i = rDip c i j /\ rDelta c j i = rDelta c i j.
Lemma Rpower_1' y : Rpower 1 y = 1.
Proof. unfold Rpower. rewrite ln_1, Rmult_0_r. apply exp_0. Qed.
Lemma step_holds c i j : holds (collStep k sp c i j) i j (factorRead (rDip c i i) (rDip c j j) (sp i) (sp j)).
Proof.
  unfold holds, collStep, factorRead, delta0. cbv zeta.
  destruct (Bool.eqb (isPolar (sp i)) (isPolar (sp j))) eqn:E.
  - cbn [rMass rWell rDiam rDip rDelta].
    rewrite !(proj1 (setSym_same _ _ _ _)), !(proj2 (setSym_same _ _ _ _)), pow1, Rpower_1'. repeat split; reflexivity.
  - assert (N : i <> j) by (intros ->; rewrite Bool.eqb_reflx in E; discriminate).
    destruct (isPolar (sp i)) eqn:P; cbn [rMass rWell rDiam rDip rDelta];
      rewrite !(proj1 (setSym_same _ _ _ _)), !(proj2 (setSym_same _ _ _ _)); rewrite set2_other by lia; unfold xiRead; repeat split; reflexivity.
Qed.
Lemma step_other c i j a b : ~ (a = i /\ b = j)%Z -> ~ (a = j /\ b = i)%Z ->
  let c' := collStep k sp c i j in rMass c' a b = rMass c a b /\ rWell c' a b = rWell c a b /\ rDiam c' a b = rDiam c a b /\ rDip c' a b = rDip c a b /\ rDelta c' a b = rDelta c a b.
Proof.
  intros H K. cbv zeta. unfold collStep.
  destruct (if Bool.eqb (isPolar (sp i)) (isPolar (sp j)) then (1, 1) else _) as [fw fd]. cbn [rMass rWell rDiam rDip rDelta]. rewrite !setSym_other by auto. repeat split; reflexivity.
Qed.
Lemma fold_other l : forall c a b, (forall x y, In (x, y) l -> ~ (a = x /\ b = y)%Z /\ ~ (a = y /\ b = x)%Z) ->
  let c' := stepAll l c in rMass c' a b = rMass c a b /\ rWell c' a b = rWell c a b /\ rDiam c' a b = rDiam c a b /\ rDip c' a b = rDip c a b /\ rDelta c' a b = rDelta c a b.
Proof.
  induction l as [|[x y] l IH]; intros c a b H; cbv zeta; [repeat split; reflexivity|]. unfold stepAll. cbn [fold_left fst snd]. fold stepAll.
  destruct (IH (collStep k sp c x y) a b) as (A1 & A2 & A3 & A4 & A5); [intros u v I; apply H; now right|].
  destruct (H x y (or_introl eq_refl)) as [N1 N2].
  destruct (step_other c x y a b N1 N2) as (B1 & B2 & B3 & B4 & B5). cbv zeta in *. rewrite A1, A2, A3, A4, A5, B1, B2, B3, B4, B5. repeat split; reflexivity.
Qed.
(** the diagonal of the dipole matrix: filled once its turn has come *)
Lemma fold_dip l : forall c m, (forall x y, In (x, y) l -> (x <= y)%Z) ->
  rDip (stepAll l c) m m = if in_dec (fun p q : Z * Z => ltac:(decide equality; apply Z.eq_dec) : {p = q} + {p <> q}) (m, m) l then sqrt (sDipole (sp m) * sDipole (sp m)) else rDip c m m.
Proof.
  induction l as [|[x y] l IH]; intros c m H; [reflexivity|]. unfold stepAll. cbn [fold_left fst snd]. fold stepAll.
  rewrite IH by (intros u v I; apply H; now right).
  match goal with |- (if ?p then _ else _) = (if ?q then _ else _) => destruct p as [I|I], q as [J|J] end; auto.
  - exfalso. apply J. now right.
  - destruct J as [J|J]; [|contradiction]. injection J as -> ->. apply (step_holds c m m).
  - apply (step_other c x y m m); intros [-> E]; apply J; left; now rewrite E.
Qed.
Lemma collisions_holds ns a b : (0 <= a <= b)%Z -> (b < ns)%Z ->
  holds (collisions k ns sp) a b (factorRead (sqrt (sDipole (sp a) * sDipole (sp a))) 0 (sp a) (sp b)).
Proof.
  intros H B. unfold collisions. rewrite (rows_split ns a b H B). change (fold_left (fun c ij => collStep k sp c (fst ij) (snd ij))) with stepAll.
  assert (S : stepAll (before ns a b ++ (a, b) :: after ns a b) coll0 = stepAll (after ns a b) (collStep k sp (stepAll (before ns a b) coll0) a b)) by (unfold stepAll; rewrite fold_left_app; reflexivity).
  rewrite S. set (c1 := stepAll (before ns a b) coll0).
  assert (O : forall x y, In (x, y) (after ns a b) -> ~ (a = x /\ b = y)%Z /\ ~ (a = y /\ b = x)%Z) by (intros x y I; apply after_in in I; lia).
  assert (O' : forall x y, In (x, y) (after ns a b) -> ~ (b = x /\ a = y)%Z /\ ~ (b = y /\ a = x)%Z) by (intros x y I; apply after_in in I; lia).
  destruct (fold_other _ (collStep k sp c1 a b) a b O) as (A1 & A2 & A3 & A4 & A5). destruct (fold_other _ (collStep k sp c1 a b) b a O') as (B1 & B2 & B3 & B4 & B5). cbv zeta in *.
  pose proof (step_holds c1 a b) as Q. unfold holds in *. cbv zeta in *. rewrite A1, A2, A3, A4, A5, B1, B2, B3, B4, B5.
  assert (Le : forall x y, In (x, y) (before ns a b) -> (x <= y)%Z) by (intros x y I; apply before_in in I; lia).
  assert (F : factorRead (rDip c1 a a) (rDip c1 b b) (sp a) (sp b) = factorRead (sqrt (sDipole (sp a) * sDipole (sp a))) 0 (sp a) (sp b)).
  { unfold factorRead. destruct (Bool.eqb (isPolar (sp a)) (isPolar (sp b))) eqn:E; [reflexivity|]. assert (N : a <> b) by (intros ->; rewrite Bool.eqb_reflx in E; discriminate).
    unfold c1. rewrite !fold_dip by exact Le.
    match goal with |- context [if ?p then sqrt _ else rDip coll0 a a] => destruct p as [I|I] end; [|exfalso; apply I; apply before_in; lia].
    match goal with |- context [if ?p then sqrt _ else rDip coll0 b b] => destruct p as [J|J] end; [exfalso; apply before_in in J; lia|]. reflexivity. }
  rewrite F in Q. exact Q.
Qed.
End Coll.

(** a minimiser of the cost passes through data that lie on a quartic *)
Lemma cost_nonneg xs : forall ys ws c, 0 <= cost xs ys ws c.
Proof. unfold cost. intros ys ws c. induction (combine (combine xs ys) ws) as [|t l IH]; cbn [fold_right]; [lra|]. pose proof (pow2_ge_0 (snd t * (snd (fst t) - quarticDown c (fst (fst t))))). lra. Qed.
Lemma cost_zero xs ys ws c : cost xs ys ws c = 0 -> forall t, In t (combine (combine xs ys) ws) -> snd t <> 0 -> snd (fst t) = quarticDown c (fst (fst t)).
Proof.
  unfold cost. induction (combine (combine xs ys) ws) as [|t l IH]; cbn [fold_right In]; [intros _ t []|]. intros Z u U N.
  set (S := fold_right _ 0 l) in *. assert (P : 0 <= S). { unfold S. clear. induction l as [|t l IH]; cbn [fold_right]; [lra|]. pose proof (pow2_ge_0 (snd t * (snd (fst t) - quarticDown c (fst (fst t))))). lra. }
  pose proof (pow2_ge_0 (snd t * (snd (fst t) - quarticDown c (fst (fst t))))) as Q.
  destruct U as [<-|U]; [|apply IH; auto; lra].
  assert (E : (snd t * (snd (fst t) - quarticDown c (fst (fst t)))) ^ 2 = 0) by lra. apply Rsqr_0_uniq in E || (rewrite <- Rsqr_pow2 in E; apply Rsqr_0_uniq in E). apply Rmult_integral in E as [E|E]; [contradiction|lra].
Qed.
Lemma cost_exact xs ys ws c : (forall t, In t (combine (combine xs ys) ws) -> snd (fst t) = quarticDown c (fst (fst t))) -> cost xs ys ws c = 0.
Proof.
  unfold cost. induction (combine (combine xs ys) ws) as [|t l IH]; intros H; cbn [fold_right]; [reflexivity|]. rewrite IH by (intros; apply H; now right). rewrite (H t (or_introl eq_refl)).
  rewrite Rminus_diag_eq by reflexivity. ring.
Qed.
Lemma combine_map3 (A : Type) (f g h : A -> R) l : combine (combine (map f l) (map g l)) (map h l) = map (fun x => (f x, g x, h x)) l.
Proof. induction l as [|x l IH]; cbn; [reflexivity|]. now rewrite IH. Qed.
Lemma fit_exact fit y : leastSquares fit -> (exists c, length c = 5%nat /\ forall T, In T samples -> y T = quarticDown c (ln T)) -> (forall T, In T samples -> y T <> 0) ->
  forall T, In T samples -> quartic (fitOf fit y) (ln T) = y T.
Proof.
  intros LS (c & Lc & Ec) Nz T I. unfold fitOf. set (xs := map ln samples). set (ys := map y samples). set (ws := map (fun T => 1 / y T ^ 2) samples).
  destruct (LS xs ys ws) as [L5 Min].
  assert (CZ : cost xs ys ws c = 0).
  { apply cost_exact. unfold xs, ys, ws. rewrite combine_map3. intros t It. apply in_map_iff in It as (T' & <- & I'). cbn [fst snd]. now apply Ec. }
  assert (FZ : cost xs ys ws (fit xs ys ws) = 0) by (pose proof (Min c Lc); pose proof (cost_nonneg xs ys ws (fit xs ys ws)); lra).
  assert (E := cost_zero _ _ _ _ FZ (ln T, y T, 1 / y T ^ 2)). cbn [fst snd] in E.
  rewrite E; [|unfold xs, ys, ws; rewrite combine_map3; apply in_map_iff; exists T; auto|apply Rgt_not_eq; unfold Rdiv; rewrite Rmult_1_l; apply Rinv_0_lt_compat; pose proof (Nz T I); assert (0 < y T * y T) by nra; nra].
  clear E FZ CZ Min. destruct (fit xs ys ws) as [|c0 [|c1 [|c2 [|c3 [|c4 [|]]]]]]; try discriminate L5.
  unfold quartic, quarticDown. change (Z.to_nat (4 - 0)) with 4%nat. change (Z.to_nat (4 - 1)) with 3%nat. change (Z.to_nat (4 - 2)) with 2%nat. change (Z.to_nat (4 - 3)) with 1%nat. change (Z.to_nat (4 - 4)) with 0%nat. cbn [nth fold_left]. ring.
Qed.
