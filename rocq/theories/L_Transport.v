(** Lemmas about mixture rules and the kinetic-theory kernel. *)
From Coq Require Import Reals ZArith List Bool Lia Lra Psatz.
From Verif Require Import M_Topology M_Halo M_Grid M_Metrics S_Metrics S_Sum M_Flux M_FluxKernels S_FluxKernels M_Thermo S_Thermo L_Grid1 L_Sum L_Thermo M_Transport S_Transport.
Import ListNotations.
Open Scope R_scope.

Lemma sumZ_pos lo hi f n : (forall i, (lo <= i < hi)%Z -> 0 <= f i) -> (lo <= n < hi)%Z -> 0 < f n -> 0 < sumZ lo hi f.
Proof. intros A B C. pose proof (sumZ_ge_term lo hi f n A B). lra. Qed.
Lemma sumZ_ex_pos lo hi f : (forall i, (lo <= i < hi)%Z -> 0 <= f i) -> 0 < sumZ lo hi f -> exists n, (lo <= n < hi)%Z /\ 0 < f n.
Proof.
  intros A H. destruct (Classical_Prop.classic (exists n, (lo <= n < hi)%Z /\ 0 < f n)) as [|N]; auto. exfalso.
  rewrite sumZ_zero in H; [lra|]. intros i Hi. destruct (Rle_lt_or_eq_dec 0 (f i) (A i Hi)); [exfalso; apply N; eauto|auto].
Qed.
Lemma trY_withLast ns y n : trY ns y n = withLast ns y n.
Proof. unfold trY, withLast. destruct (n =? ns - 1)%Z; auto. apply lastY_sum. Qed.
Lemma trMass_sum ns mw y : trMass ns mw (trY ns y) = sumZ 0 ns (fun m => withLast ns y m / mw m).
Proof. unfold trMass. rewrite accum_sum. apply sumZ_ext. intros. now rewrite trY_withLast. Qed.
Lemma trX_mole ns mw y n : trX ns mw (trY ns y) n = moleFraction ns mw y n.
Proof. unfold trX, moleFraction. now rewrite trMass_sum, trY_withLast. Qed.
Section Mix.
Variables (ns : Z) (mw y : Z -> R).
Hypothesis (H1 : (1 <= ns)%Z) (Hmw : positiveOn ns mw) (HY : validFracs ns y).
Lemma molar_nonneg n : (0 <= n < ns)%Z -> 0 <= withLast ns y n / mw n.
Proof. intros H. apply Rmult_le_pos; [now apply withLast_nonneg|]. left. apply Rinv_0_lt_compat. auto. Qed.
Lemma molar_sum_pos : 0 < sumZ 0 ns (fun m => withLast ns y m / mw m).
Proof.
  destruct (sumZ_ex_pos 0 ns (withLast ns y)) as (n & Hn & Hp); [intros; now apply withLast_nonneg|rewrite sum_withLast by auto; lra|].
  apply (sumZ_pos 0 ns _ n); auto; [intros; now apply molar_nonneg|]. apply Rmult_lt_0_compat; auto. apply Rinv_0_lt_compat. auto.
Qed.
Lemma mole_nonneg n : (0 <= n < ns)%Z -> 0 <= moleFraction ns mw y n.
Proof. intros H. unfold moleFraction. apply Rmult_le_pos; [now apply molar_nonneg|]. left. apply Rinv_0_lt_compat, molar_sum_pos. Qed.
Lemma mole_sum : sumZ 0 ns (moleFraction ns mw y) = 1.
Proof.
  unfold moleFraction. set (m := sumZ 0 ns (fun k => withLast ns y k / mw k)).
  rewrite (sumZ_ext 0 ns _ (fun n => / m * (withLast ns y n / mw n))) by (intros; unfold Rdiv; ring).
  rewrite sumZ_scale. fold m. pose proof molar_sum_pos. apply Rinv_l. fold m in H. lra.
Qed.
End Mix.
(** X: nonnegative weights adding up to one *)
Definition weights (ns : Z) (X : Z -> R) : Prop := (forall n, (0 <= n < ns)%Z -> 0 <= X n) /\ sumZ 0 ns X = 1.
Lemma mole_weights ns mw y : (1 <= ns)%Z -> positiveOn ns mw -> validFracs ns y -> weights ns (moleFraction ns mw y).
Proof. intros. split; [intros; now apply mole_nonneg|now apply mole_sum]. Qed.
Lemma weighted_pos ns X f : weights ns X -> positiveOn ns f -> 0 < sumZ 0 ns (fun n => X n * f n).
Proof.
  intros (A & B) Hf. destruct (sumZ_ex_pos 0 ns X A) as (n & Hn & Hp); [lra|].
  apply (sumZ_pos 0 ns _ n); auto; [intros i Hi; apply Rmult_le_pos; [auto|left; now apply Hf]|apply Rmult_lt_0_compat; auto].
Qed.
Lemma phi_pos mw mu n n2 : 0 < mw n -> 0 < mw n2 -> 0 < wilkePhi mw mu n n2.
Proof.
  intros A B. unfold wilkePhi. pose proof (sqrt_pos (mu n / mu n2 * sqrt (mw n2 / mw n))).
  assert (0 < mw n / mw n2) by (apply Rmult_lt_0_compat; [auto|now apply Rinv_0_lt_compat]).
  apply Rmult_lt_0_compat; [nra|]. apply Rinv_0_lt_compat, Rmult_lt_0_compat; apply sqrt_lt_R0; lra.
Qed.
Lemma phi_diag mw mu n : 0 < mw n -> 0 < mu n -> wilkePhi mw mu n n = 1.
Proof.
  intros A B. unfold wilkePhi. unfold Rdiv. rewrite !Rinv_r by lra. rewrite sqrt_1, Rmult_1_r, sqrt_1.
  rewrite <- sqrt_mult by lra. replace (8 * (1 + 1)) with (4 * 4) by ring. rewrite sqrt_square by lra. field.
Qed.
Lemma mixMu_ext ns mw mu mu' X X' : (forall n, (0 <= n < ns)%Z -> mu n = mu' n) -> (forall n, (0 <= n < ns)%Z -> X n = X' n) -> mixMu ns mw mu X = mixMu ns mw mu' X'.
Proof.
  intros A B. unfold mixMu. apply accum_ext. intros n Hn. rewrite A, B by auto. f_equal. apply accum_ext. intros k Hk. rewrite B by auto. f_equal. unfold wilkePhi. now rewrite !A by auto.
Qed.
Lemma mixKappa_ext ns k k' X X' : (forall n, (0 <= n < ns)%Z -> k n = k' n) -> (forall n, (0 <= n < ns)%Z -> X n = X' n) -> mixKappa ns k X = mixKappa ns k' X'.
Proof. intros A B. unfold mixKappa. do 2 f_equal; [|f_equal]; apply accum_ext; intros n Hn; now rewrite A, B. Qed.
Lemma mixMu_pos ns mw mu X : positiveOn ns mw -> positiveOn ns mu -> weights ns X -> 0 < mixMu ns mw mu X.
Proof.
  intros A B W. unfold mixMu. rewrite accum_sum.
  assert (P : forall n, (0 <= n < ns)%Z -> 0 < accum 0 ns (fun n2 => wilkePhi mw mu n n2 * X n2)).
  { intros n Hn. rewrite accum_sum. rewrite (sumZ_ext _ _ _ (fun k => X k * wilkePhi mw mu n k)) by (intros; ring). apply weighted_pos; auto. intros k Hk. apply phi_pos; auto. }
  rewrite (sumZ_ext _ _ _ (fun n => X n * (mu n / accum 0 ns (fun n2 => wilkePhi mw mu n n2 * X n2)))) by (intros; unfold Rdiv; ring).
  apply weighted_pos; auto. intros n Hn. apply Rmult_lt_0_compat; auto. apply Rinv_0_lt_compat. auto.
Qed.
Lemma mixKappa_pos ns k X : positiveOn ns k -> weights ns X -> 0 < mixKappa ns k X.
Proof.
  intros A W. unfold mixKappa. rewrite !accum_sum. pose proof (weighted_pos ns X k W A).
  assert (0 < sumZ 0 ns (fun n => X n / k n)) by (apply (weighted_pos ns X (fun n => / k n)); auto; intros n Hn; apply Rinv_0_lt_compat; auto).
  pose proof (Rinv_0_lt_compat _ H0). unfold Rdiv. lra.
Qed.
Lemma sumZ_single ns s f : (0 <= s < ns)%Z -> (forall n, (0 <= n < ns)%Z -> n <> s -> f n = 0) -> sumZ 0 ns f = f s.
Proof.
  intros Hs Hf. apply Rle_antisym.
  - pose proof (sumZ_le 0 ns f (fun n => if (n =? s)%Z then f s else 0)) as X. assert (D : sumZ 0 ns (fun n => if (n =? s)%Z then f s else 0) = f s).
    { clear X Hf. assert (G : forall k, (0 <= k)%Z -> sumZ 0 k (fun n => if (n =? s)%Z then f s else 0) = if (s <? k)%Z then f s else 0).
      { intros k Hk. pattern k. apply natlike_ind; auto.
        - rewrite sumZ_empty by lia. destruct (Z.ltb_spec s 0); [lia|auto].
        - intros x Hx IH. unfold Z.succ. rewrite sumZ_snoc by lia. rewrite IH. destruct (Z.ltb_spec s x), (Z.eqb_spec x s), (Z.ltb_spec s (x + 1)); try lia; ring. }
      rewrite G by lia. destruct (Z.ltb_spec s ns); [auto|lia]. }
    rewrite D in X. apply X. intros i Hi. destruct (Z.eqb_spec i s); [subst; lra|]. rewrite Hf by auto. lra.
  - pose proof (sumZ_le 0 ns (fun n => if (n =? s)%Z then f s else 0) f) as X. assert (D : sumZ 0 ns (fun n => if (n =? s)%Z then f s else 0) = f s).
    { clear X Hf. assert (G : forall k, (0 <= k)%Z -> sumZ 0 k (fun n => if (n =? s)%Z then f s else 0) = if (s <? k)%Z then f s else 0).
      { intros k Hk. pattern k. apply natlike_ind; auto.
        - rewrite sumZ_empty by lia. destruct (Z.ltb_spec s 0); [lia|auto].
        - intros x Hx IH. unfold Z.succ. rewrite sumZ_snoc by lia. rewrite IH. destruct (Z.ltb_spec s x), (Z.eqb_spec x s), (Z.ltb_spec s (x + 1)); try lia; ring. }
      rewrite G by lia. destruct (Z.ltb_spec s ns); [auto|lia]. }
    rewrite D in X. apply X. intros i Hi. destruct (Z.eqb_spec i s); [subst; lra|]. rewrite Hf by auto. lra.
Qed.
Lemma mixMu_pure ns mw mu X s : (0 <= s < ns)%Z -> 0 < mw s -> 0 < mu s -> (forall n, (0 <= n < ns)%Z -> X n = if (n =? s)%Z then 1 else 0) -> mixMu ns mw mu X = mu s.
Proof.
  intros Hs A B E. unfold mixMu. rewrite accum_sum. rewrite (sumZ_single ns s) by (first [assumption | intros n Hn N; rewrite E by auto; destruct (Z.eqb_spec n s); [contradiction|unfold Rdiv; ring]]).
  rewrite accum_sum, (sumZ_single ns s) by (first [assumption | intros n Hn N; rewrite (E n) by auto; destruct (Z.eqb_spec n s); [contradiction|ring]]).
  rewrite E, Z.eqb_refl, phi_diag by auto. field.
Qed.
Lemma mixKappa_pure ns k X s : (0 <= s < ns)%Z -> k s <> 0 -> (forall n, (0 <= n < ns)%Z -> X n = if (n =? s)%Z then 1 else 0) -> mixKappa ns k X = k s.
Proof.
  intros Hs A E. unfold mixKappa. rewrite !accum_sum.
  rewrite (sumZ_single ns s) by (first [assumption | intros n Hn N; rewrite E by auto; destruct (Z.eqb_spec n s); [contradiction|ring]]).
  rewrite (sumZ_single ns s (fun n => X n / k n)) by (first [assumption | intros n Hn N; rewrite E by auto; destruct (Z.eqb_spec n s); [contradiction|unfold Rdiv; ring]]).
  rewrite E, Z.eqb_refl by auto. field. auto.
Qed.
Lemma mole_pure ns mw y s : (0 <= s < ns)%Z -> 0 < mw s -> pureGas ns s y -> forall n, (0 <= n < ns)%Z -> moleFraction ns mw y n = if (n =? s)%Z then 1 else 0.
Proof.
  intros Hs A P n Hn. unfold moleFraction. rewrite (sumZ_single ns s) by (first [assumption | intros k Hk N; rewrite P by auto; destruct (Z.eqb_spec k s); [contradiction|unfold Rdiv; ring]]).
  rewrite !P, Z.eqb_refl by auto. destruct (Z.eqb_spec n s) as [->|]; unfold Rdiv; [field; lra|ring].
Qed.
Lemma mixKappa_between ns k X lo hi : weights ns X -> 0 < lo -> (forall n, (0 <= n < ns)%Z -> lo <= k n <= hi) -> lo <= mixKappa ns k X <= hi.
Proof.
  intros (A & B) Hlo K. unfold mixKappa. rewrite !accum_sum.
  assert (S1 : lo <= sumZ 0 ns (fun n => X n * k n) <= hi).
  { split.
    - replace lo with (sumZ 0 ns (fun n => lo * X n)) by (rewrite sumZ_scale, B; ring). apply sumZ_le. intros i Hi. specialize (K i Hi). specialize (A i Hi). nra.
    - replace hi with (sumZ 0 ns (fun n => hi * X n)) by (rewrite sumZ_scale, B; ring). apply sumZ_le. intros i Hi. specialize (K i Hi). specialize (A i Hi). nra. }
  assert (N0 : 0 < hi) by (destruct (sumZ_ex_pos 0 ns X A) as (n & Hn & _); [lra|]; specialize (K n Hn); lra).
  assert (S2 : / hi <= sumZ 0 ns (fun n => X n / k n) <= / lo).
  { split.
    - replace (/ hi) with (sumZ 0 ns (fun n => / hi * X n)) by (rewrite sumZ_scale, B; ring). apply sumZ_le. intros i Hi. specialize (K i Hi). specialize (A i Hi).
      unfold Rdiv. rewrite Rmult_comm. apply Rmult_le_compat_l; auto. apply Rinv_le_contravar; lra.
    - replace (/ lo) with (sumZ 0 ns (fun n => / lo * X n)) by (rewrite sumZ_scale, B; ring). apply sumZ_le. intros i Hi. specialize (K i Hi). specialize (A i Hi).
      unfold Rdiv. rewrite (Rmult_comm (/ lo)). apply Rmult_le_compat_l; auto. apply Rinv_le_contravar; lra. }
  set (h := sumZ 0 ns (fun n => X n / k n)) in *. destruct S2 as (S2 & S3). pose proof (Rinv_0_lt_compat hi N0).
  assert (I1 : lo <= / h) by (rewrite <- (Rinv_inv lo); apply Rinv_le_contravar; lra).
  assert (I2 : / h <= hi) by (rewrite <- (Rinv_inv hi); apply Rinv_le_contravar; lra).
  unfold Rdiv. lra.
Qed.

(** ** the kinetic-theory kernel *)
Lemma polyInto_quartic old c x : polyInto old c x = old + quartic c x.
Proof. unfold polyInto, quartic, logPow. change (zrange 0 5) with [0;1;2;3;4]%Z. simpl. ring. Qed.
Lemma moleLoop_mixed mw Y mass l : forall X m0, NoDup l -> (forall n, In n l -> Y n / mw n / mass <> 1) ->
  exists X', moleLoop mw Y mass l X m0 = (X', m0 + fold_right Rplus 0 (map (fun n => Y n / mw n / mass * mw n) l), (-1)%Z) /\
  (forall n, In n l -> X' n = Y n / mw n / mass) /\ (forall n, ~ In n l -> X' n = X n).
Proof.
  induction l as [|a l IH]; intros X m0 ND H.
  - exists X. split; [cbn [moleLoop map fold_right]; now rewrite Rplus_0_r|]. split; [intros n []|auto].
  - cbn [moleLoop map fold_right]. cbv zeta. inversion ND as [|? ? Na Nl]; subst. destruct (Req_EM_T (Y a / mw a / mass) 1) as [E|_]; [exfalso; apply (H a); [now left|auto]|].
    destruct (IH (upd X a (Y a / mw a / mass)) (m0 + Y a / mw a / mass * mw a) Nl) as (X' & E & I1 & I2); [intros; apply H; now right|].
    exists X'. split; [rewrite E; do 2 f_equal; ring|]. split.
    + intros n [->|Hn]; [|auto]. rewrite I2 by auto. unfold upd. now rewrite Z.eqb_refl.
    + intros n Hn. rewrite I2 by (intros Q; apply Hn; now right). unfold upd. destruct (Z.eqb_spec n a); [subst; exfalso; apply Hn; now left|auto].
Qed.
Lemma zrange_nodup lo hi : NoDup (zrange lo hi).
Proof.
  destruct (Z.le_gt_cases hi lo) as [H|H]; [rewrite zrange_empty by lia; constructor|].
  replace hi with (lo + (hi - lo))%Z by lia. assert (K : (0 <= hi - lo)%Z) by lia. revert K. generalize (hi - lo)%Z as k. clear H hi.
  apply natlike_ind; [rewrite Z.add_0_r, zrange_empty by lia; constructor|].
  intros x Hx IH. unfold Z.succ. replace (lo + (x + 1))%Z with (lo + x + 1)%Z by lia. rewrite zrange_snoc' by lia.
  apply NoDup_app_remove_r with (l' := []) || idtac. rewrite <- (app_nil_r (zrange lo (lo + x) ++ [(lo + x)%Z])). rewrite <- app_assoc. cbn [app].
  apply NoDup_Add with (a := (lo + x)%Z) (l := zrange lo (lo + x)); [apply Add_app_nil || (pose proof (Add_app (lo + x)%Z (zrange lo (lo + x)) []) as Q; rewrite app_nil_r in Q; exact Q)|].
  split; auto. rewrite zrange_in. lia.
Qed.
