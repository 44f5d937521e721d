(** Lemmas about files. *)
From Coq Require Import Reals ZArith NArith String Ascii List Bool Lia Permutation.
From Verif Require Import M_Topology M_Halo M_Grid M_Metrics M_Procs L_Procs S_Procs P_Procs M_Io S_Io.
Import ListNotations.
Open Scope Z_scope.

Lemma some_inj {A} (x y : A) : Some x = Some y -> x = y. Proof. congruence. Qed.
(** ** dictionaries *)
Lemma assoc_assign_same {A} (l : list (text * A)) k v : assoc (assign l k v) k = Some v.
Proof. induction l as [|[k' v'] l IH]; cbn [assign assoc]; [destruct (text_dec k k); congruence | ]. destruct (text_dec k k') as [-> | N]; cbn [assoc]; [destruct (text_dec k' k'); congruence | destruct (text_dec k k'); [congruence | exact IH]]. Qed.
Lemma assoc_assign_other {A} (l : list (text * A)) k k2 v : k2 <> k -> assoc (assign l k v) k2 = assoc l k2.
Proof.
  intros N. induction l as [|[k' v'] l IH]; cbn [assign assoc]; [destruct (text_dec k2 k); congruence | ]. destruct (text_dec k k') as [-> | N']; cbn [assoc].
  - destruct (text_dec k2 k'); [congruence | reflexivity].
  - destruct (text_dec k2 k'); [reflexivity | exact IH].
Qed.
Lemma assoc_app {A} (l1 l2 : list (text * A)) k : assoc (l1 ++ l2) k = match assoc l1 k with Some v => Some v | None => assoc l2 k end.
Proof. induction l1 as [|[k' v'] l IH]; cbn [app assoc]; [reflexivity | ]. destruct (text_dec k k'); [reflexivity | exact IH]. Qed.
Lemma assoc_none {A} (l : list (text * A)) k : assoc l k = None <-> ~ In k (map fst l).
Proof. induction l as [|[k' v'] l IH]; cbn [assoc map fst In]; [tauto | ]. destruct (text_dec k k') as [-> | N]; [split; [discriminate | intros H; elim H; auto] | ]. rewrite IH. intuition congruence. Qed.
Lemma assoc_in {A} (l : list (text * A)) k v : NoDup (map fst l) -> In (k, v) l -> assoc l k = Some v.
Proof.
  induction l as [|[k' v'] l IH]; cbn [assoc map fst]; intros ND I; [destruct I | ]. apply NoDup_cons_iff in ND. destruct ND as [N ND]. destruct I as [E | I].
  - injection E as -> ->. destruct (text_dec k k); congruence.
  - destruct (text_dec k k') as [-> | _]; [elim N; exact (in_map fst _ _ I) | auto].
Qed.
Lemma assoc_some_in {A} (l : list (text * A)) k v : assoc l k = Some v -> In (k, v) l.
Proof. induction l as [|[k' v'] l IH]; cbn [assoc]; [discriminate | ]. destruct (text_dec k k') as [-> | _]; [intros H; apply some_inj in H; subst; left; reflexivity | right; auto]. Qed.
Lemma create_spec {A} (l l' : list (text * A)) k v : create l k v = Some l' -> assoc l k = None /\ assoc l' k = Some v /\ forall k2, k2 <> k -> assoc l' k2 = assoc l k2.
Proof.
  unfold create. destruct (assoc l k) eqn:E; [discriminate | ]. intros H. apply some_inj in H. subst l'. split; [reflexivity | ]. split.
  - rewrite assoc_app, E. cbn [assoc]. destruct (text_dec k k); congruence.
  - intros k2 N. rewrite assoc_app. destruct (assoc l k2); [reflexivity | ]. cbn [assoc]. destruct (text_dec k2 k); congruence.
Qed.
Lemma create_ok {A} (l : list (text * A)) k v : assoc l k = None -> exists l', create l k v = Some l'.
Proof. intros H. unfold create. rewrite H. eauto. Qed.
(** ** names *)
Lemma value_zeros n l acc : value (repeat "0"%char n ++ l) acc = value l (acc * 10 ^ N.of_nat n).
Proof.
  revert acc. induction n as [|n IH]; intros acc; [cbn [repeat app]; rewrite N.mul_1_r; reflexivity | ].
  cbn [repeat app value]. rewrite IH. f_equal. change (N.of_nat (nat_of_ascii "0")) with 48%N. rewrite N.sub_diag, N.add_0_r, Nat2N.inj_succ, N.pow_succ_r'. lia.
Qed.
Lemma padded_value w n : value (padded w n) 0 = n.
Proof. unfold padded. rewrite value_zeros. cbn [N.mul]. apply (C62_numerals n). Qed.
Lemma padded_inj w n m : padded w n = padded w m -> n = m.
Proof. intros H. rewrite <- (padded_value w n), H. apply padded_value. Qed.
Lemma printN_inj n m : printN n = printN m -> n = m.
Proof. intros H. destruct (C62_numerals n) as (_ & _ & A), (C62_numerals m) as (_ & _ & B). rewrite <- A, H. exact B. Qed.
Lemma printZ_inj a b : printZ a = printZ b -> a = b.
Proof.
  unfold printZ. assert (D : forall n r, printN n <> "-"%char :: r). { intros n r H. assert (I : In "-"%char (printN n)) by (rewrite H; left; reflexivity). apply printN_digits in I. unfold isDigit in I. cbn in I. lia. }
  destruct (Z.ltb_spec a 0), (Z.ltb_spec b 0); intros H1.
  - injection H1 as H1. apply printN_inj in H1. lia.
  - symmetry in H1. elim (D _ _ H1).
  - elim (D _ _ H1).
  - apply printN_inj in H1. lia.
Qed.
Lemma resS_inj n m : resS n = resS m -> n = m. Proof. intros H. apply (padded_inj 6). exact (app_inv_head _ _ _ H). Qed.
Lemma resS_iter n : resS n <> t "iter". Proof. unfold resS. cbn. discriminate. Qed.
Lemma coordS_inj a b : coordS a = coordS b -> io_num a = io_num b. Proof. intros H. apply (padded_inj 6). exact (app_inv_head _ _ _ H). Qed.
Lemma dimS_inj a b : dimS a = dimS b -> io_num a = io_num b. Proof. intros H. apply (padded_inj 6). exact (app_inv_head _ _ _ H). Qed.
Lemma coord_dim a b : coordS a <> dimS b. Proof. unfold coordS, dimS. cbn. discriminate. Qed.
Lemma gName_inj n m : t "g." ++ padded 6 n ++ t ".h5" = t "g." ++ padded 6 m ++ t ".h5" -> n = m.
Proof. intros H. apply app_inv_head in H. apply app_inv_tail in H. apply (padded_inj 6). exact H. Qed.
Lemma varFileName_inj a nrt n m : varFileName false a nrt n = varFileName false a nrt m -> n = m.
Proof.
  unfold varFileName. destruct a; intros H; apply app_inv_head in H; [apply app_inv_head in H; apply app_inv_head in H | ]; apply app_inv_tail in H; apply (padded_inj 6); exact H.
Qed.
(** ** arrays in files *)
Lemma upto_length n : List.length (upto n) = Z.to_nat n. Proof. unfold upto. rewrite map_length, seq_length. reflexivity. Qed.
Lemma upto_in n i : In i (upto n) <-> 0 <= i < n.
Proof. unfold upto. rewrite in_map_iff. split; [intros (k & <- & I); apply in_seq in I; lia | intros H; exists (Z.to_nat i); split; [lia | apply in_seq; lia]]. Qed.
Lemma upto_nth n i d : 0 <= i < n -> nth (Z.to_nat i) (upto n) d = i.
Proof. intros H. unfold upto. rewrite (nth_indep _ d (Z.of_nat 0)) by (rewrite map_length, seq_length; lia). rewrite map_nth, seq_nth by lia. lia. Qed.
Lemma upto_NoDup n : NoDup (upto n).
Proof. unfold upto. apply FinFun.Injective_map_NoDup; [intros x y H; lia | apply seq_NoDup]. Qed.
Lemma flat_map_length {A B} (f : A -> list B) l m : (forall x, In x l -> List.length (f x) = m) -> List.length (flat_map f l) = (List.length l * m)%nat.
Proof. induction l as [|a l IH]; intros H; [reflexivity | ]. cbn [flat_map List.length]. rewrite app_length, H, IH by (try (left; reflexivity); intros; apply H; right; assumption). lia. Qed.
Lemma nth_flat_map {A B} (f : A -> list B) m d x0 : forall l q r, (forall x, In x l -> List.length (f x) = m) -> (r < m)%nat -> (q < List.length l)%nat -> nth (q * m + r) (flat_map f l) d = nth r (f (nth q l x0)) d.
Proof.
  induction l as [|a l IH]; intros q r H R Q; [cbn in Q; lia | ]. cbn [flat_map]. assert (L : List.length (f a) = m) by (apply H; left; reflexivity). destruct q as [|q].
  - cbn [Nat.mul Nat.add nth]. apply app_nth1. lia.
  - rewrite app_nth2 by (cbn; lia). replace (S q * m + r - List.length (f a))%nat with (q * m + r)%nat by (cbn; lia). cbn [nth]. apply IH; [intros; apply H; right; assumption | exact R | cbn in Q; lia].
Qed.
Lemma ravelF_length n1 n2 n3 lo a : 0 <= n1 -> 0 <= n2 -> 0 <= n3 -> List.length (ravelF n1 n2 n3 lo a) = Z.to_nat (n1 * n2 * n3).
Proof.
  intros H1 H2 H3. unfold ravelF. rewrite (flat_map_length _ _ (Z.to_nat (n1 * n2))).
  - rewrite upto_length, <- Z2Nat.inj_mul by nia. f_equal. ring.
  - intros k _. rewrite (flat_map_length _ _ (Z.to_nat n1)); [rewrite upto_length, <- Z2Nat.inj_mul by nia; f_equal; ring | ]. intros j _. rewrite map_length, upto_length. reflexivity.
Qed.
Lemma ravelF_nth n1 n2 n3 lo a i j k : 0 <= i < n1 -> 0 <= j < n2 -> 0 <= k < n3 -> nth (Z.to_nat (i + n1 * (j + n2 * k))) (ravelF n1 n2 n3 lo a) 0%R = a (lo + i) (lo + j) (lo + k).
Proof.
  intros Hi Hj Hk. assert (P1 : 0 <= n1 * j) by nia. assert (P2 : 0 <= n1 * n2) by nia. assert (P3 : 0 <= n2 * k) by nia. assert (P4 : 0 <= n1 * (j + n2 * k)) by nia.
  unfold ravelF. replace (Z.to_nat (i + n1 * (j + n2 * k))) with (Z.to_nat k * Z.to_nat (n1 * n2) + Z.to_nat (i + n1 * j))%nat by (apply Nat2Z.inj; rewrite Nat2Z.inj_add, Nat2Z.inj_mul, !Z2Nat.id by lia; ring).
  rewrite (nth_flat_map _ (Z.to_nat (n1 * n2)) _ 0).
  - rewrite upto_nth by lia. replace (Z.to_nat (i + n1 * j)) with (Z.to_nat j * Z.to_nat n1 + Z.to_nat i)%nat by (apply Nat2Z.inj; rewrite Nat2Z.inj_add, Nat2Z.inj_mul, !Z2Nat.id by lia; ring).
    rewrite (nth_flat_map _ (Z.to_nat n1) _ 0).
    + rewrite upto_nth by lia. rewrite (nth_indep _ 0%R (a (lo + 0) (lo + j) (lo + k))) by (rewrite map_length, upto_length; lia). rewrite (map_nth (fun i => a (lo + i) (lo + j) (lo + k))), upto_nth by lia. reflexivity.
    + intros x _. rewrite map_length, upto_length. reflexivity.
    + lia.
    + rewrite upto_length. lia.
  - intros x _. rewrite (flat_map_length _ _ (Z.to_nat n1)); [rewrite upto_length, <- Z2Nat.inj_mul by nia; f_equal; ring | ]. intros y _. rewrite map_length, upto_length. reflexivity.
  - nia.
  - rewrite upto_length. lia.
Qed.
(** reading what was written *)
Lemma reshape_ravel rnd n1 n2 n3 lo a : 0 <= n1 -> 0 <= n2 -> 0 <= n3 -> exists v, reshapeF n1 n2 n3 (map rnd (ravelF n1 n2 n3 lo a)) = Some v /\
  forall i j k, 0 <= i < n1 -> 0 <= j < n2 -> 0 <= k < n3 -> v i j k = rnd (a (lo + i) (lo + j) (lo + k)).
Proof.
  intros H1 H2 H3. unfold reshapeF. rewrite map_length, ravelF_length, Nat.eqb_refl by assumption. eexists. split; [reflexivity | ]. intros i j k Hi Hj Hk. cbv beta.
  assert (Q : j + n2 * k <= n2 * n3 - 1) by nia. assert (Q1 : 0 <= j + n2 * k) by nia. assert (Q2 : n1 * (j + n2 * k) <= n1 * (n2 * n3 - 1)) by (apply Z.mul_le_mono_nonneg_l; lia). assert (Q3 : 0 <= n1 * (j + n2 * k)) by nia.
  rewrite (nth_indep _ 0%R (rnd 0%R)) by (rewrite map_length, ravelF_length by assumption; apply Z2Nat.inj_lt; lia). rewrite map_nth, ravelF_nth by assumption. reflexivity.
Qed.
Lemma setSlice_in n1 n2 n3 lo v a i j k : 0 <= i < n1 -> 0 <= j < n2 -> 0 <= k < n3 -> setSlice n1 n2 n3 lo v a (lo + i) (lo + j) (lo + k) = v i j k.
Proof.
  intros Hi Hj Hk. unfold setSlice. replace ((lo <=? lo + i) && (lo + i <? lo + n1) && (lo <=? lo + j) && (lo + j <? lo + n2) && (lo <=? lo + k) && (lo + k <? lo + n3))%bool with true by (symmetry; rewrite !andb_true_iff; lia).
  f_equal; lia.
Qed.
