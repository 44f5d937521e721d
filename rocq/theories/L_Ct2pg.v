(** Lemmas for C119: what the pieces of generated text evaluate to. *)
From Coq Require Import Reals ZArith List Bool Lia Lra.
From Verif Require Import M_Halo S_Sum L_Sum L_Thermo L_Halo1 M_Ct2pg S_Ct2pg.
Import ListNotations.
Open Scope R_scope.

Inductive itemsOk (s : inputs) (v : env) : list item -> R -> Prop :=
  | ok_nil : itemsOk s v [] 0
  | ok_plus e a l x : eval s v e = Some a -> itemsOk s v l x -> itemsOk s v ((LPlus, e) :: l) (a + x)
  | ok_minus e a l x : eval s v e = Some a -> itemsOk s v l x -> itemsOk s v ((LMinus, e) :: l) (- a + x).

Lemma itemsOk_eq s v l x y : itemsOk s v l x -> x = y -> itemsOk s v l y.
Proof. now intros H <-. Qed.
Lemma itemsOk_app s v l x l' x' : itemsOk s v l x -> itemsOk s v l' x' -> itemsOk s v (l ++ l') (x + x').
Proof.
  intros H H'. induction H as [|e a l x He _ IH|e a l x He _ IH]; cbn [app].
  - now rewrite Rplus_0_l.
  - rewrite Rplus_assoc. now constructor.
  - rewrite Rplus_assoc. now constructor.
Qed.
Lemma readMore_ok s v l x : itemsOk s v l x -> forall a y, eval s v a = Some y -> exists e, readMore a l = Some e /\ eval s v e = Some (y + x).
Proof.
  induction 1 as [|e b l x He _ IH|e b l x He _ IH]; intros a y Ha; cbn [readMore].
  - exists a. split; [reflexivity|]. now rewrite Rplus_0_r.
  - destruct (IH (Add a e) (y + b)) as (t & Ht & Hv); [cbn [eval]; now rewrite Ha, He|]. exists t. split; [exact Ht|]. rewrite Hv. f_equal. ring.
  - destruct (IH (Sub a e) (y - b)) as (t & Ht & Hv); [cbn [eval]; now rewrite Ha, He|]. exists t. split; [exact Ht|]. rewrite Hv. f_equal. ring.
Qed.
Lemma sumText_ok s v l x : itemsOk s v l x -> l <> [] -> exists e, sumText l = Some e /\ eval s v e = Some x.
Proof.
  intros H N. destruct H as [|e a l x He H|e a l x He H]; [now elim N| |]; unfold sumText; cbn [dropPlus readSum].
  - destruct (readMore_ok s v l x H e a He) as (t & Ht & Hv). now exists t.
  - destruct (readMore_ok s v l x H (Neg e) (- a)) as (t & Ht & Hv); [cbn [eval]; now rewrite He|]. now exists t.
Qed.
(** the text does not depend on the values, only its meaning does *)
Lemma signedItem_ok s v c x a : eval s v x = Some a -> itemsOk s v (signedItem c x) (c * a).
Proof.
  intros H. unfold signedItem. destruct (Req_EM_T c 1) as [->|N1]; [apply (itemsOk_eq _ _ _ (a + 0)); [constructor; [exact H|constructor]|ring]|].
  destruct (Req_EM_T c (-1)) as [->|N2]; [apply (itemsOk_eq _ _ _ (- a + 0)); [constructor; [exact H|constructor]|ring]|].
  destruct (Req_EM_T c 0) as [->|N3]; [rewrite Rmult_0_l; constructor|].
  destruct (Rle_dec 0 c).
  - apply (itemsOk_eq _ _ _ (c * a + 0)); [constructor; [cbn [eval]; now rewrite H|constructor]|ring].
  - apply (itemsOk_eq _ _ _ (- (- c * a) + 0)); [constructor; [cbn [eval]; now rewrite H|constructor]|ring].
Qed.
Lemma signedItem_nil c x : signedItem c x = [] -> c = 0.
Proof.
  unfold signedItem. destruct (Req_EM_T c 1); [discriminate|]. destruct (Req_EM_T c (-1)); [discriminate|]. destruct (Req_EM_T c 0); [auto|].
  destruct (Rle_dec 0 c); discriminate.
Qed.
Lemma flat_ok s v (f : Z -> list item) (g : Z -> R) l : (forall j, In j l -> itemsOk s v (f j) (g j)) -> itemsOk s v (flat_map f l) (fold_right Rplus 0 (map g l)).
Proof.
  induction l as [|j l IH]; intros H; cbn [flat_map map fold_right]; [constructor|].
  apply itemsOk_app; [apply H; now left|apply IH; intros i Hi; apply H; now right].
Qed.
Lemma flat_nil {X Y} (f : X -> list Y) l : flat_map f l = [] -> forall x, In x l -> f x = [].
Proof.
  induction l as [|y l IH]; intros H x Hx; [destruct Hx|]. cbn [flat_map] in H. apply app_eq_nil in H as [H1 H2]. destruct Hx as [->|Hx]; auto.
Qed.

Lemma sumR_sumZ ns f : sumR ns f = sumZ 0 ns f.
Proof. rewrite <- accum_sum. reflexivity. Qed.

Lemma dG_ok s v ns r : okReaction ns r -> exists e, dGText ns r = Some e /\ eval s v e = Some (sumZ 0 ns (fun n => netCoef r n * inG s n)).
Proof.
  intros (_ & (n & Hn & N) & _). unfold dGText. apply sumText_ok.
  - unfold sumZ. apply flat_ok. intros j _. apply signedItem_ok. reflexivity.
  - intros E. pose proof (flat_nil _ _ E n) as H. cbv beta in H. rewrite zrange_in in H. specialize (H Hn). apply signedItem_nil in H. lra.
Qed.

Lemma tbc_ok s v ns t : okEff ns (effOf t) -> exists e, tbcText ns t = Some [Set_ VcTBC e] /\ eval s v e = Some (thirdBody ns t (inCs s)).
Proof.
  intros (H0 & n & Hn & Hp). unfold tbcText. rewrite sumR_sumZ. destruct (Rlt_dec 0 (sumZ 0 ns (effOf t))) as [_|N].
  2:{ exfalso. apply N. eapply Rlt_le_trans; [exact Hp|]. now apply sumZ_ge_term. }
  edestruct (sumText_ok s v) as (e & He & Hv); [| |exists e; rewrite He; split; [reflexivity|exact Hv]].
  - unfold thirdBody, sumZ. apply flat_ok. intros j Hj. apply zrange_in in Hj. cbv zeta. specialize (H0 j Hj).
    destruct (Rlt_dec 0 (effOf t j)) as [Hlt|Hge].
    + destruct (Req_EM_T (effOf t j) 1) as [->|N1].
      * apply (itemsOk_eq _ _ _ (inCs s j + 0)); [constructor; [reflexivity|constructor]|ring].
      * apply (itemsOk_eq _ _ _ (effOf t j * inCs s j + 0)); [constructor; [reflexivity|constructor]|ring].
    + replace (effOf t j) with 0 by lra. rewrite Rmult_0_l. constructor.
  - intros E. pose proof (flat_nil _ _ E n) as H. cbv beta zeta in H. rewrite zrange_in in H. specialize (H Hn).
    destruct (Rlt_dec 0 (effOf t n)); [|lra]. destruct (Req_EM_T (effOf t n) 1); discriminate.
Qed.

(** ** rate constants *)
Lemma trunc_IZR z : trunc (IZR z) = z.
Proof.
  assert (F : forall y, Int_part (IZR y) = y).
  { intros y. unfold Int_part. rewrite <- (tech_up (IZR y) (y + 1)); [lia| |]; rewrite plus_IZR; lra. }
  unfold trunc. destruct (Rle_dec 0 (IZR z)); [apply F|]. rewrite <- opp_IZR, F. lia.
Qed.
Lemma plain_val m : plainExponent m -> pyval (intOrFloat m) = m.
Proof.
  intros H. unfold intOrFloat. destruct (Rlt_dec (/ 10 ^ 16) (Rabs (m - IZR (trunc m)))) as [L|L]; [reflexivity|].
  destruct H as [[z ->]|H]; [now rewrite trunc_IZR|]. elim L. apply H.
Qed.
Definition ready (T : R) (v : env) : Prop := vars v VT = Some T /\ vars v VTinv = Some (1 / T) /\ vars v VlogT = Some (ln T).
Lemma times_ok s v b y : eval s v b = Some y -> forall n a x, eval s v a = Some x -> eval s v (times a b n) = Some (x * y ^ n).
Proof.
  intros Hb n. induction n as [|n IH]; intros a x Ha; cbn [times]; [rewrite Ha; f_equal; cbn; ring|].
  rewrite (IH _ (x * y)); [f_equal; cbn [pow]; ring|]. cbn [eval]. now rewrite Ha, Hb.
Qed.
Lemma plusTerm_ok s v a m b x y : eval s v a = Some x -> eval s v b = Some y -> eval s v (plusTerm a m b) = Some (x + m * y).
Proof. intros Ha Hb. unfold plusTerm. destruct (Rle_dec 0 m); cbn [eval]; rewrite Ha, Hb; cbn [bind2]; f_equal; ring. Qed.
Lemma exp_law A m E T : 0 < A -> 0 < T -> exp (ln A + m * ln T - E * (1 / T)) = A * Rpower T m * exp (- E / T).
Proof. intros HA HT. unfold Rpower. rewrite <- (exp_ln A HA) at 2. rewrite <- !exp_plus. f_equal. field. lra. Qed.
Lemma rateConst_ok s v T a : okArrh a -> 0 < T -> ready T v -> eval s v (rateConstOf a) = Some (arrheniusLaw a T).
Proof.
  intros (HA & Hm) HT (HvT & HvI & HvL). unfold rateConstOf, rateConst. pose proof (plain_val _ Hm) as Hp. unfold arrheniusLaw.
  destruct (intOrFloat (aM a)) as [z|x] eqn:Ei; cbn [pyval] in Hp |- *.
  - destruct (Req_EM_T (IZR z) 0) as [Z0|Z0].
    + rewrite <- Hp, Z0. rewrite Rpower_O by assumption. destruct (Req_EM_T (aE a) 0) as [E0|E0]; cbn [eval].
      * f_equal. rewrite E0. replace (- 0 / T) with 0 by (field; lra). rewrite exp_0. ring.
      * destruct (Rlt_dec 0 (aA a)); [|lra]. rewrite HvI. cbn [bind2]. f_equal.
        pose proof (exp_law (aA a) 0 (aE a) T HA HT) as X. rewrite Rpower_O in X by assumption. rewrite <- X. f_equal. ring.
    + destruct (Req_EM_T (aE a) 0) as [E0|E0].
      * replace (- aE a / T) with 0 by (rewrite E0; field; lra). rewrite exp_0, Rmult_1_r, <- Hp. destruct (z <? 0)%Z eqn:Ez.
        -- rewrite (times_ok s v (Var VTinv) (1 / T) HvI _ _ (aA a)) by reflexivity. f_equal. f_equal.
           apply Z.ltb_lt in Ez. replace z with (- Z.of_nat (Z.to_nat (- z)))%Z at 2 by lia. rewrite opp_IZR, Rpower_Ropp, <- INR_IZR_INZ, Rpower_pow by assumption.
           unfold Rdiv. rewrite Rmult_1_l. now rewrite <- pow_inv.
        -- rewrite (times_ok s v (Var VT) T HvT _ _ (aA a)) by reflexivity. f_equal. f_equal.
           apply Z.ltb_ge in Ez. replace z with (Z.of_nat (Z.to_nat z)) at 2 by lia. now rewrite <- INR_IZR_INZ, Rpower_pow.
      * cbn [eval]. rewrite (plusTerm_ok s v _ (IZR z) _ (ln (aA a)) (ln T)); [| |exact HvL].
        -- rewrite HvI. cbn [bind2]. f_equal. rewrite exp_law by assumption. now rewrite Hp.
        -- cbn [eval]. destruct (Rlt_dec 0 (aA a)); [reflexivity|lra].
  - destruct (Req_EM_T x 0) as [Z0|Z0].
    + rewrite <- Hp, Z0. rewrite Rpower_O by assumption. destruct (Req_EM_T (aE a) 0) as [E0|E0]; cbn [eval].
      * f_equal. rewrite E0. replace (- 0 / T) with 0 by (field; lra). rewrite exp_0. ring.
      * destruct (Rlt_dec 0 (aA a)); [|lra]. rewrite HvI. cbn [bind2]. f_equal.
        pose proof (exp_law (aA a) 0 (aE a) T HA HT) as X. rewrite Rpower_O in X by assumption. rewrite <- X. f_equal. ring.
    + assert (HL : eval s v (plusTerm (Lg (Num (aA a))) x (Var VlogT)) = Some (ln (aA a) + x * ln T)).
      { apply plusTerm_ok; [|exact HvL]. cbn [eval]. destruct (Rlt_dec 0 (aA a)); [reflexivity|lra]. }
      destruct (Req_EM_T (aE a) 0) as [E0|E0]; cbn [eval]; rewrite HL.
      * f_equal. rewrite <- Hp, <- exp_law by assumption. f_equal. rewrite E0. ring.
      * rewrite HvI. cbn [bind2]. f_equal. rewrite exp_law by assumption. now rewrite Hp.
Qed.
Lemma law_pos a T : okArrh a -> 0 < arrheniusLaw a T.
Proof. intros (HA & _). unfold arrheniusLaw. apply Rmult_lt_0_compat; [apply Rmult_lt_0_compat; [exact HA|apply exp_pos]|apply exp_pos]. Qed.

(** ** products of concentrations *)
Lemma products_gen s v nu l : (forall j, In j l -> 0 <= inCs s j /\ 0 <= nu j) -> forall k x, eval s v k = Some x ->
  eval s v (fold_left (fun a j => if Req_EM_T (nu j) 1 then Mul a (Cs j) else if Rlt_dec 0 (nu j) then Mul a (Pw (Cs j) (Num (nu j))) else a) l k)
  = Some (x * fold_right Rmult 1 (map (fun j => toThe (inCs s j) (nu j)) l)).
Proof.
  induction l as [|j l IH]; intros H k x Hk; cbn [fold_left map fold_right]; [rewrite Hk; f_equal; ring|].
  destruct (H j) as [Hc Hn]; [now left|]. rewrite <- Rmult_assoc. apply IH; [intros i Hi; apply H; now right|].
  unfold toThe. destruct (Req_EM_T (nu j) 1) as [E1|N1].
  - cbn [eval]. rewrite Hk. cbn [bind2]. f_equal. f_equal. rewrite E1. destruct (Req_EM_T 1 0); [lra|].
    destruct (Req_EM_T (inCs s j) 0) as [->|N]; [reflexivity|]. rewrite Rpower_1; [reflexivity|lra].
  - destruct (Rlt_dec 0 (nu j)) as [L|L].
    + cbn [eval]. rewrite Hk. cbn [bind2]. unfold powC. destruct (Req_EM_T (nu j) 0); [lra|].
      destruct (Req_EM_T (inCs s j) 0) as [E|N].
      * destruct (Rlt_dec 0 (inCs s j)); [lra|]. destruct (Rlt_dec 0 (nu j)); [reflexivity|lra].
      * destruct (Rlt_dec 0 (inCs s j)); [reflexivity|lra].
    + destruct (Req_EM_T (nu j) 0) as [_|N]; [|lra]. rewrite Hk. f_equal. ring.
Qed.
Lemma products_ok s v ns nu k x : (forall j, (0 <= j < ns)%Z -> 0 <= inCs s j) -> (forall j, (0 <= j < ns)%Z -> 0 <= nu j) -> eval s v k = Some x ->
  eval s v (products ns k nu) = Some (x * prodZ 0 ns (fun j => toThe (inCs s j) (nu j))).
Proof. intros H1 H2 Hk. unfold products, prodZ. apply products_gen; [|exact Hk]. intros j Hj. apply zrange_in in Hj. auto. Qed.

(** ** equilibrium constant *)
Lemma kc_ok s v ns Ru T r g : 0 < Ru -> 0 < T -> vars v VprefRuT = Some (101325 / (Ru * T)) -> vars v VdG = Some g ->
  eval s v (kcText ns r) = Some (Rpower (101325 / (Ru * T)) (sumZ 0 ns (netCoef r)) * exp (- g)).
Proof.
  intros HR HT Hp Hg. unfold kcText. cbv zeta. rewrite sumR_sumZ. change (fun j => ctB r j - ctF r j) with (netCoef r).
  assert (P : 0 < 101325 / (Ru * T)) by (apply Rdiv_lt_0_compat; [lra|now apply Rmult_lt_0_compat]).
  set (n := sumZ 0 ns (netCoef r)). destruct (Req_EM_T n 0) as [->|N0].
  - cbn [eval]. rewrite Hg. f_equal. rewrite Rpower_O by exact P. ring.
  - destruct (Req_EM_T n 1) as [->|N1].
    + cbn [eval]. rewrite Hg, Hp. cbn [bind2]. now rewrite Rpower_1.
    + destruct (Req_EM_T n (-1)) as [->|N2].
      * cbn [eval]. rewrite Hg, Hp. cbn [bind2]. destruct (Req_EM_T (101325 / (Ru * T)) 0); [lra|]. f_equal.
        replace (-1) with (- (1)) by lra. rewrite Rpower_Ropp, Rpower_1 by exact P. field. split; lra.
      * cbn [eval]. rewrite Hg, Hp. cbn [bind2]. unfold powC. destruct (Rlt_dec 0 (101325 / (Ru * T))); [|lra]. reflexivity.
Qed.
Lemma equil_pos ns Ru r T g : 0 < equilibrium ns Ru r T g.
Proof. apply Rmult_lt_0_compat; apply exp_pos. Qed.
