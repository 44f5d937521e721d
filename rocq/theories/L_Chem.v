(** Lemmas for the chemistry properties: table checks and what they imply. *)
From Coq Require Import Reals ZArith List Bool Lia Lra.
From Verif Require Import M_Halo S_Sum L_Grid1 L_Sum M_Thermo S_Thermo L_Thermo M_Chem S_Chem.
Import ListNotations.
Open Scope R_scope.

(** *** checks on the tables *)
Definition inRange (nsp : Z) (l : list (Z * Z)) : bool := forallb (fun ip => (0 <=? fst ip)%Z && (fst ip <? nsp)%Z) l.
Definition posPow (l : list (Z * Z)) : bool := forallb (fun ip => (1 <=? snd ip)%Z) l.
Definition sumPow (l : list (Z * Z)) : Z := fold_right (fun ip s => snd ip + s)%Z 0%Z l.
Definition wfReac (nsp : Z) (r : reac) : bool :=
  inRange nsp (rF r) && inRange nsp (rB r) && inRange nsp (rDG r) && posPow (rF r) && posPow (rB r).
Definition gibbsOK (nsp : Z) (r : reac) : bool :=
  forallb (fun n => power (rDG r) n =? net r n)%Z (zrange 0 nsp) && (rKc r =? sumPow (rB r) - sumPow (rF r))%Z.
Definition atomSum (t : list formula) (l : list (Z * Z)) (e : elem) : Z := fold_right (fun ip s => snd ip * atomsOf t (fst ip) e + s)%Z 0%Z l.
Definition balanced (t : list formula) (r : reac) : bool :=
  forallb (fun e => atomSum t (rB r) e =? atomSum t (rF r) e)%Z [eH; eC; eO; eN; eAr].
Fixpoint expected (k : nat) (rs : list reac) (n : Z) : list (Z * nat) :=
  match rs with [] => [] | r :: rs' => if (net r n =? 0)%Z then expected (S k) rs' n else (net r n, k) :: expected (S k) rs' n end.
Fixpoint eqbTerms (a b : list (Z * nat)) : bool :=
  match a, b with [], [] => true | (x, i) :: a', (y, j) :: b' => (x =? y)%Z && (i =? j)%nat && eqbTerms a' b' | _, _ => false end.
Definition srcOK (m : mech) : bool := forallb (fun n => eqbTerms (nth (Z.to_nat n) (m_src m) []) (expected 0 (m_reacs m) n)) (zrange 0 (m_ns m)).
Definition pos (d : decimal) : bool := let 'D m _ := d in (0 <? m)%Z.
Definition posK (k : kexpr) : bool := match k with Arr A _ _ => pos A | Pow A _ => pos A end.
Definition posTb (tb : list (Z * decimal)) : bool := forallb (fun ic => pos (snd ic)) tb.
Definition nonempty {A} (l : list A) : bool := match l with [] => false | _ => true end.
Definition tbIn (nsp : Z) (tb : list (Z * decimal)) : bool := forallb (fun ip => (0 <=? fst ip)%Z && (fst ip <? nsp)%Z) tb.
Definition posReac (nsp : Z) (r : reac) : bool :=
  posK (rK r) && match rKind r with Plain => true | Third tb => posTb tb && tbIn nsp tb && nonempty tb
                 | Lindemann tb k0 => posTb tb && tbIn nsp tb && nonempty tb && posK k0
                 | Troe tb k0 _ _ _ _ => posTb tb && tbIn nsp tb && nonempty tb && posK k0 end.

Lemma eqbTerms_eq a b : eqbTerms a b = true -> a = b.
Proof.
  revert b. induction a as [|[x i] a IH]; intros [|[y j] b] H; cbn in H; try discriminate; auto.
  apply andb_true_iff in H as [H1 H2]. apply andb_true_iff in H1 as [H0 H1]. apply Z.eqb_eq in H0. apply Nat.eqb_eq in H1. subst. f_equal. auto.
Qed.
Lemma sumZ_delta lo hi i c : (lo <= i < hi)%Z -> sumZ lo hi (fun n => if (i =? n)%Z then c else 0) = c.
Proof.
  intros H. replace hi with ((i + 1) + (hi - (i + 1)))%Z by lia. assert (0 <= hi - (i + 1))%Z as P by lia. revert P. generalize (hi - (i + 1))%Z.
  apply natlike_ind.
  - rewrite Z.add_0_r, sumZ_snoc by lia. rewrite Z.eqb_refl. rewrite sumZ_zero; [lra|]. intros j Hj. destruct (Z.eqb_spec i j); [lia|auto].
  - intros n Hn IH. unfold Z.succ. rewrite Z.add_assoc, sumZ_snoc by lia. rewrite IH. destruct (Z.eqb_spec i (i + 1 + n)); [lia|lra].
Qed.
Lemma sumZ_const_mult lo hi c f : sumZ lo hi (fun i => f i * c) = sumZ lo hi f * c.
Proof. rewrite Rmult_comm, <- sumZ_scale. apply sumZ_ext. intros. lra. Qed.

(** sum over the entries of a list = sum over the species *)
Definition lsum (l : list (Z * Z)) (f : Z -> R) : R := fold_right (fun ip s => IZR (snd ip) * f (fst ip) + s) 0 l.
Lemma lsum_species nsp l f : inRange nsp l = true -> lsum l f = sumZ 0 nsp (fun n => IZR (power l n) * f n).
Proof.
  induction l as [|[i p] l IH]; intros H.
  - cbn. symmetry. apply sumZ_zero. intros. lra.
  - cbn [inRange forallb fst] in H. apply andb_true_iff in H as [H1 H2]. apply andb_true_iff in H1 as [A B]. apply Z.leb_le in A. apply Z.ltb_lt in B.
    cbn [lsum fold_right fst snd]. fold (lsum l f). rewrite IH by exact H2.
    rewrite <- (sumZ_delta 0 nsp i (IZR p * f i)) by lia. rewrite <- sumZ_plus. apply sumZ_ext. intros n Hn. cbn [power fold_right fst snd]. fold (power l n).
    destruct (Z.eqb_spec i n); [subst; rewrite plus_IZR; lra|lra].
Qed.
Lemma fold_lsum_gen (l : list (Z * Z)) f a : fold_left (fun s ic => s + IZR (snd ic) * f (fst ic)) l a = a + lsum l f.
Proof. revert a. induction l as [|ic l IH]; intros a; cbn [fold_left lsum fold_right]; [lra|]. rewrite IH. fold (lsum l f). lra. Qed.
Lemma gibbs_lsum l g : gibbs l g = lsum l g.
Proof. unfold gibbs. rewrite fold_lsum_gen. lra. Qed.

(** *** sums over reactions *)
Definition rsum (rs : list reac) (q : list R) (f : reac -> R) : R := fold_right (fun rx s => snd rx * f (fst rx) + s) 0 (combine rs q).
Lemma rsum_cons r rs x q f : rsum (r :: rs) (x :: q) f = x * f r + rsum rs q f.
Proof. reflexivity. Qed.
Lemma fold_terms_gen (l : list (Z * nat)) q a : fold_left (fun s ci => s + IZR (fst ci) * nth (snd ci) q 0) l a =
  a + fold_right (fun ci s => IZR (fst ci) * nth (snd ci) q 0 + s) 0 l.
Proof. revert a. induction l as [|c l IH]; intros a; cbn [fold_left fold_right]; [lra|]. rewrite IH. lra. Qed.
Lemma expected_sum n rs : forall q pre k, List.length pre = k -> List.length q = List.length rs ->
  fold_right (fun ci s => IZR (fst ci) * nth (snd ci) (pre ++ q) 0 + s) 0 (expected k rs n) = rsum rs q (fun r => IZR (net r n)).
Proof.
  induction rs as [|r rs IH]; intros q pre k Hk Hq; [reflexivity|].
  destruct q as [|x q]; [discriminate|]. cbn in Hq. injection Hq as Hq.
  assert (E: fold_right (fun ci s => IZR (fst ci) * nth (snd ci) (pre ++ x :: q) 0 + s) 0 (expected (S k) rs n) = rsum rs q (fun r => IZR (net r n))).
  { rewrite <- (IH q (pre ++ [x]) (S k)); auto. 2:{ rewrite app_length. cbn. lia. } rewrite <- app_assoc. reflexivity. }
  unfold rsum in *. cbn [combine fold_right fst snd expected]. destruct (Z.eqb_spec (net r n) 0) as [Z0|Z0].
  - rewrite E, Z0. lra.
  - cbn [fold_right fst snd]. rewrite E. rewrite app_nth2 by lia. rewrite Hk, Nat.sub_diag. cbn [nth]. lra.
Qed.
Lemma molarSource_net m q n : srcOK m = true -> (0 <= n < m_ns m)%Z -> List.length q = List.length (m_reacs m) ->
  molarSource m q n = rsum (m_reacs m) q (fun r => IZR (net r n)).
Proof.
  intros H Hn Hq. unfold srcOK in H. rewrite forallb_forall in H. specialize (H n). assert (In n (zrange 0 (m_ns m))) as HI by (apply zrange_in; lia).
  apply H in HI. apply eqbTerms_eq in HI. unfold molarSource. rewrite HI, fold_terms_gen. rewrite <- (expected_sum n (m_reacs m) q [] 0) by auto.
  cbn [app]. lra.
Qed.
Lemma rsum_ext rs q f g : (forall r, In r rs -> f r = g r) -> rsum rs q f = rsum rs q g.
Proof.
  revert q. induction rs as [|r rs IH]; intros [|x q] H; auto. unfold rsum in *. cbn [combine fold_right fst snd].
  rewrite (H r) by (now left). rewrite (IH q); auto. intros. apply H. now right.
Qed.
Lemma rsum_zero rs q f : (forall r, In r rs -> f r = 0) -> rsum rs q f = 0.
Proof.
  revert q. induction rs as [|r rs IH]; intros [|x q] H; auto. unfold rsum in *. cbn [combine fold_right fst snd].
  rewrite (H r) by (now left). rewrite (IH q); [lra|]. intros. apply H. now right.
Qed.
Lemma rsum_swap nsp rs q (g : Z -> R) (f : reac -> Z -> R) :
  sumZ 0 nsp (fun n => g n * rsum rs q (fun r => f r n)) = rsum rs q (fun r => sumZ 0 nsp (fun n => f r n * g n)).
Proof.
  revert q. induction rs as [|r rs IH]; intros [|x q].
  1-3: (cbn; apply sumZ_zero; intros; cbn; lra).
  rewrite rsum_cons, <- IH. rewrite <- sumZ_scale, <- sumZ_plus. apply sumZ_ext. intros n Hn. rewrite rsum_cons. lra.
Qed.
Lemma species_reactions m q g : srcOK m = true -> List.length q = List.length (m_reacs m) ->
  sumZ 0 (m_ns m) (fun n => g n * molarSource m q n) = rsum (m_reacs m) q (fun r => sumZ 0 (m_ns m) (fun n => IZR (net r n) * g n)).
Proof.
  intros H Hq. rewrite <- rsum_swap. apply sumZ_ext. intros n Hn. now rewrite molarSource_net.
Qed.
Lemma net_sum nsp r g : wfReac nsp r = true -> sumZ 0 nsp (fun n => IZR (net r n) * g n) = lsum (rB r) g - lsum (rF r) g.
Proof.
  intros H. unfold wfReac in H. rewrite !andb_true_iff in H. destruct H as ((((A & B) & _) & _) & _).
  rewrite (lsum_species nsp (rB r)), (lsum_species nsp (rF r)) by auto. rewrite <- sumZ_minus. apply sumZ_ext. intros n Hn. unfold net. rewrite minus_IZR. lra.
Qed.
Lemma lsum_atoms t l e : lsum l (fun n => IZR (atomsOf t n e)) = IZR (atomSum t l e).
Proof.
  induction l as [|[i p] l IH]; auto. cbn [lsum fold_right fst snd atomSum]. fold (lsum l (fun n => IZR (atomsOf t n e))). rewrite IH.
  fold (atomSum t l e). rewrite plus_IZR, mult_IZR. lra.
Qed.
Lemma balanced_zero nsp t r e : wfReac nsp r = true -> balanced t r = true -> sumZ 0 nsp (fun n => IZR (net r n) * IZR (atomsOf t n e)) = 0.
Proof.
  intros H B. rewrite (net_sum nsp r (fun n => IZR (atomsOf t n e))) by auto. rewrite !lsum_atoms. unfold balanced in B. rewrite forallb_forall in B.
  assert (E: (atomSum t (rB r) e =? atomSum t (rF r) e)%Z = true) by (apply B; destruct e; cbn; auto 6). apply Z.eqb_eq in E. rewrite E. lra.
Qed.
(** the conclusion about elements *)
Lemma elements_zero m t q e : srcOK m = true -> forallb (wfReac (m_ns m)) (m_reacs m) = true -> forallb (balanced t) (m_reacs m) = true ->
  List.length q = List.length (m_reacs m) -> sumZ 0 (m_ns m) (fun n => IZR (atomsOf t n e) * molarSource m q n) = 0.
Proof.
  intros A B C Hq. rewrite species_reactions by auto. apply rsum_zero. intros r Hr. rewrite forallb_forall in B, C. apply balanced_zero; auto.
Qed.

(** *** rates *)
Lemma rates_length rs T cs gbs pr q : rates rs T cs gbs pr = Some q -> List.length q = List.length rs.
Proof.
  revert q. induction rs as [|r rs IH]; intros q H; cbn in H; [injection H as <-; auto|].
  destruct (rate r T cs gbs pr); [|discriminate]. destruct (rates rs T cs gbs pr); [|discriminate]. injection H as <-. cbn. f_equal. now apply IH.
Qed.
Lemma rates_In rs T cs gbs pr q : rates rs T cs gbs pr = Some q -> Forall (fun rx => rate (fst rx) T cs gbs pr = Some (snd rx)) (combine rs q).
Proof.
  revert q. induction rs as [|r rs IH]; intros q H; cbn in H; [injection H as <-; constructor|].
  destruct (rate r T cs gbs pr) eqn:E; [|discriminate]. destruct (rates rs T cs gbs pr); [|discriminate]. injection H as <-. cbn. constructor; auto.
Qed.
Lemma rates_some rs T cs gbs pr : (forall r, In r rs -> exists x, rate r T cs gbs pr = Some x) -> exists q, rates rs T cs gbs pr = Some q.
Proof.
  induction rs as [|r rs IH]; intros H; cbn; [eauto|]. destruct (H r (or_introl eq_refl)) as (x & ->).
  destruct IH as (q & ->); [intros; apply H; now right|]. eauto.
Qed.
Lemma rsum_nonneg rs q f : Forall (fun rx => 0 <= snd rx * f (fst rx)) (combine rs q) -> 0 <= rsum rs q f.
Proof. unfold rsum. induction (combine rs q) as [|rx l IH]; intros H; cbn; [lra|]. inversion H; subst. specialize (IH H3). lra. Qed.
Lemma rsum_nonpos rs q f : Forall (fun rx => snd rx * f (fst rx) <= 0) (combine rs q) -> rsum rs q f <= 0.
Proof. unfold rsum. induction (combine rs q) as [|rx l IH]; intros H; cbn; [lra|]. inversion H; subst. specialize (IH H3). lra. Qed.

Lemma powerRZ_10_pos e : 0 < powerRZ 10 e.
Proof. apply powerRZ_lt. lra. Qed.
Lemma pos_decR d : pos d = true -> 0 < decR d.
Proof. destruct d as [m e]. cbn. intros H. apply Z.ltb_lt in H. apply Rmult_lt_0_compat; [now apply IZR_lt|apply powerRZ_10_pos]. Qed.
Lemma kval_pos k T : posK k = true -> 0 < T -> 0 < kval k T.
Proof.
  intros H HT. destruct k as [A b E|A n]; cbn [kval posK] in *; [apply exp_pos|].
  apply Rmult_lt_0_compat; [now apply pos_decR|]. apply pow_lt. apply Rdiv_lt_0_compat; lra.
Qed.
Lemma fold_tb_gen (tb : list (Z * decimal)) cs a : fold_left (fun s ic => s + decR (snd ic) * cs (fst ic)) tb a =
  a + fold_right (fun ic s => decR (snd ic) * cs (fst ic) + s) 0 tb.
Proof. revert a. induction tb as [|c l IH]; intros a; cbn [fold_left fold_right]; [lra|]. rewrite IH. lra. Qed.
Lemma tbc_nonneg nsp tb cs : posTb tb = true -> tbIn nsp tb = true -> (forall n, (0 <= n < nsp)%Z -> 0 <= cs n) -> 0 <= tbc tb cs.
Proof.
  intros H HI Hc. unfold tbc. rewrite fold_tb_gen, Rplus_0_l. induction tb as [|[i c] l IH]; cbn [fold_right fst snd]; [lra|].
  cbn in H, HI. apply andb_true_iff in H as [H1 H2], HI as [I1 I2]. apply andb_true_iff in I1 as [I0 I1]. apply Z.leb_le in I0. apply Z.ltb_lt in I1.
  specialize (IH H2 I2). pose proof (pos_decR _ H1). specialize (Hc i). assert (0 <= decR c * cs i) by (apply Rmult_le_pos; [lra|apply Hc; lia]). lra.
Qed.
Lemma tbc_pos nsp tb cs i : posTb tb = true -> tbIn nsp tb = true -> (forall n, (0 <= n < nsp)%Z -> 0 <= cs n) -> existsb (fun ic => (fst ic =? i)%Z) tb = true -> 0 < cs i -> 0 < tbc tb cs.
Proof.
  intros H HI Hc HE Hi. unfold tbc. rewrite fold_tb_gen, Rplus_0_l. induction tb as [|[j c] l IH]; cbn [fold_right fst snd]; [discriminate|].
  assert (HL: 0 <= fold_right (fun ic s => decR (snd ic) * cs (fst ic) + s) 0 l).
  { cbn in H, HI. apply andb_true_iff in H as [_ H2], HI as [_ I2]. pose proof (tbc_nonneg nsp l cs H2 I2 Hc) as P. unfold tbc in P. rewrite fold_tb_gen in P. lra. }
  cbn in H, HI, HE. apply andb_true_iff in H as [H1 H2], HI as [I1 I2]. apply andb_true_iff in I1 as [I0 I1]. apply Z.leb_le in I0. apply Z.ltb_lt in I1.
  pose proof (pos_decR _ H1). apply orb_true_iff in HE as [E|E].
  - apply Z.eqb_eq in E. subst. assert (0 < decR c * cs i) by (apply Rmult_lt_0_compat; auto). lra.
  - specialize (IH H2 I2 E). assert (0 <= decR c * cs j) by (apply Rmult_le_pos; [lra|apply Hc; lia]). lra.
Qed.
Lemma tbc_pos_all nsp tb cs : posTb tb = true -> tbIn nsp tb = true -> nonempty tb = true -> (forall n, (0 <= n < nsp)%Z -> 0 < cs n) -> 0 < tbc tb cs.
Proof.
  intros H HI HN Hc. destruct tb as [|[i c] l]; [discriminate|]. apply (tbc_pos nsp _ cs i); auto.
  - intros. apply Rlt_le. auto.
  - cbn. now rewrite Z.eqb_refl.
  - apply Hc. cbn in HI. apply andb_true_iff in HI as [I1 _]. apply andb_true_iff in I1 as [I0 I1]. apply Z.leb_le in I0. apply Z.ltb_lt in I1. lia.
Qed.
Lemma lind_nonneg Pr : 0 <= Pr -> 0 <= Pr / (1 + Pr).
Proof. intros. apply Rmult_le_pos; auto. apply Rlt_le, Rinv_0_lt_compat. lra. Qed.
Lemma lind_pos Pr : 0 < Pr -> 0 < Pr / (1 + Pr).
Proof. intros. apply Rdiv_lt_0_compat; lra. Qed.
Lemma troe_pos a T3 T1 T2 T Pr x : troe a T3 T1 T2 T Pr = Some x -> 0 < x.
Proof.
  unfold troe. cbv zeta. destruct (Rle_dec _ 0); [discriminate|]. destruct (Rle_dec Pr 0); [discriminate|]. assert (0 < Pr) by lra.
  destruct (Req_EM_T _ 0).
  - destruct (Req_EM_T _ 0); [discriminate|]. intros E. injection E as <-. pose proof (lind_pos Pr H). lra.
  - intros E. injection E as <-. apply Rmult_lt_0_compat; [now apply lind_pos|]. unfold Rpower. apply exp_pos.
Qed.
Lemma forwardK_nonneg nsp r T cs k : posReac nsp r = true -> 0 < T -> (forall n, (0 <= n < nsp)%Z -> 0 <= cs n) -> forwardK r T cs = Some k -> 0 <= k.
Proof.
  intros H HT Hc. unfold posReac in H. apply andb_true_iff in H as [HK H]. pose proof (kval_pos _ _ HK HT) as P. unfold forwardK. cbv zeta.
  destruct (rKind r) as [|tb|tb k0|tb k0 a T3 T1 T2]; rewrite ?andb_true_iff in H.
  - intros E; injection E as <-; lra.
  - intros E; injection E as <-. apply Rmult_le_pos; [lra|]. apply (tbc_nonneg nsp); tauto.
  - intros E; injection E as <-. apply Rmult_le_pos; [lra|]. apply lind_nonneg. destruct H as (((A & B) & _) & C). pose proof (kval_pos _ _ C HT). pose proof (tbc_nonneg nsp tb cs A B Hc).
    apply Rmult_le_pos; [|apply Rlt_le, Rinv_0_lt_compat; auto]. apply Rmult_le_pos; lra.
  - destruct (troe _ _ _ _ _ _) eqn:E; [|discriminate]. intros E'; injection E' as <-. apply troe_pos in E. apply Rmult_le_pos; lra.
Qed.
Lemma forwardK_pos nsp r T cs k : posReac nsp r = true -> 0 < T -> (forall n, (0 <= n < nsp)%Z -> 0 < cs n) -> forwardK r T cs = Some k -> 0 < k.
Proof.
  intros H HT Hc. unfold posReac in H. apply andb_true_iff in H as [HK H]. pose proof (kval_pos _ _ HK HT) as P. unfold forwardK. cbv zeta.
  destruct (rKind r) as [|tb|tb k0|tb k0 a T3 T1 T2]; rewrite ?andb_true_iff in H.
  - intros E; injection E as <-; lra.
  - intros E; injection E as <-. apply Rmult_lt_0_compat; [lra|]. apply (tbc_pos_all nsp); tauto.
  - intros E; injection E as <-. apply Rmult_lt_0_compat; [lra|]. apply lind_pos. destruct H as (((A & B) & B') & C). pose proof (kval_pos _ _ C HT). pose proof (tbc_pos_all nsp tb cs A B B' Hc).
    apply Rdiv_lt_0_compat; auto. apply Rmult_lt_0_compat; auto.
  - destruct (troe _ _ _ _ _ _) eqn:E; [|discriminate]. intros E'; injection E' as <-. apply troe_pos in E. apply Rmult_lt_0_compat; lra.
Qed.

(** *** concentration products *)
Definition prodc (l : list (Z * Z)) (cs : Z -> R) : R := fold_right (fun ip s => cs (fst ip) ^ Z.to_nat (snd ip) * s) 1 l.
Lemma conc_prod l cs k : conc l cs k = k * prodc l cs.
Proof.
  unfold conc. revert k. induction l as [|ip l IH]; intros k; cbn [fold_left prodc fold_right]; [lra|]. rewrite IH. fold (prodc l cs). lra.
Qed.
Lemma prodc_nonneg nsp l cs : inRange nsp l = true -> (forall n, (0 <= n < nsp)%Z -> 0 <= cs n) -> 0 <= prodc l cs.
Proof.
  intros H Hc. induction l as [|[i p] l IH]; cbn [prodc fold_right fst snd]; [lra|]. fold (prodc l cs). cbn in H. apply andb_true_iff in H as [H1 H2].
  apply andb_true_iff in H1 as [A B]. apply Z.leb_le in A. apply Z.ltb_lt in B. apply Rmult_le_pos; auto. apply pow_le. apply Hc. lia.
Qed.
Lemma prodc_pos nsp l cs : inRange nsp l = true -> (forall n, (0 <= n < nsp)%Z -> 0 < cs n) -> 0 < prodc l cs.
Proof.
  intros H Hc. induction l as [|[i p] l IH]; cbn [prodc fold_right fst snd]; [lra|]. fold (prodc l cs). cbn in H. apply andb_true_iff in H as [H1 H2].
  apply andb_true_iff in H1 as [A B]. apply Z.leb_le in A. apply Z.ltb_lt in B. apply Rmult_lt_0_compat; auto. apply pow_lt. apply Hc. lia.
Qed.
Lemma prodc_zero l cs n : posPow l = true -> (0 < power l n)%Z -> cs n = 0 -> prodc l cs = 0.
Proof.
  intros H HP Hc. induction l as [|[i p] l IH]; cbn [power fold_right] in HP; [lia|]. cbn [prodc fold_right fst snd] in *. fold (prodc l cs).
  cbn in H. apply andb_true_iff in H as [H1 H2]. apply Z.leb_le in H1. destruct (Z.eqb_spec i n).
  - subst. rewrite Hc, pow_i by lia. lra.
  - fold (power l n) in HP. rewrite IH; auto. lra.
Qed.
Lemma power_nonneg l n : posPow l = true -> (0 <= power l n)%Z.
Proof.
  induction l as [|[i p] l IH]; intros H; cbn; [lia|]. cbn in H. apply andb_true_iff in H as [H1 H2]. apply Z.leb_le in H1. specialize (IH H2).
  fold (power l n). destruct (i =? n)%Z; lia.
Qed.
Lemma prodc_exp nsp l cs : inRange nsp l = true -> posPow l = true -> (forall n, (0 <= n < nsp)%Z -> 0 < cs n) -> prodc l cs = exp (lsum l (fun n => ln (cs n))).
Proof.
  intros H HP Hc. induction l as [|[i p] l IH]; cbn [prodc lsum fold_right fst snd]; [now rewrite exp_0|]. fold (prodc l cs). fold (lsum l (fun n => ln (cs n))).
  cbn in H, HP. apply andb_true_iff in H as [H1 H2], HP as [P1 P2]. apply andb_true_iff in H1 as [A B]. apply Z.leb_le in A, P1. apply Z.ltb_lt in B.
  rewrite IH by auto. rewrite exp_plus. f_equal. assert (0 < cs i) by (apply Hc; lia).
  rewrite <- (Rpower_pow (Z.to_nat p)) by auto. unfold Rpower. f_equal. f_equal. rewrite INR_IZR_INZ, Z2Nat.id by lia. auto.
Qed.
Lemma lsum_const l c : lsum l (fun _ => c) = IZR (sumPow l) * c.
Proof. induction l as [|[i p] l IH]; cbn [lsum sumPow fold_right fst snd]; [lra|]. fold (lsum l (fun _ => c)). fold (sumPow l). rewrite IH, plus_IZR. lra. Qed.
Lemma lsum_plus l f g : lsum l (fun n => f n + g n) = lsum l f + lsum l g.
Proof. induction l as [|[i p] l IH]; cbn [lsum fold_right fst snd]; [lra|]. fold (lsum l (fun n => f n + g n)) (lsum l f) (lsum l g). rewrite IH. lra. Qed.
Lemma lsum_minus l f g : lsum l (fun n => f n - g n) = lsum l f - lsum l g.
Proof. induction l as [|[i p] l IH]; cbn [lsum fold_right fst snd]; [lra|]. fold (lsum l (fun n => f n - g n)) (lsum l f) (lsum l g). rewrite IH. lra. Qed.
Lemma lsum_ext nsp l f g : inRange nsp l = true -> (forall n, (0 <= n < nsp)%Z -> f n = g n) -> lsum l f = lsum l g.
Proof. intros H E. rewrite !(lsum_species nsp) by auto. apply sumZ_ext. intros. rewrite E; auto. Qed.

Lemma lnDiv a b : 0 < a -> 0 < b -> ln (a / b) = ln a - ln b.
Proof. intros. unfold Rdiv. rewrite ln_mult, ln_Rinv by (auto using Rinv_0_lt_compat); lra. Qed.
(** the backward rate is the forward rate times exp(reaction Gibbs energy) *)
Lemma rate_gibbs nsp r T cs gbs pr q : wfReac nsp r = true -> gibbsOK nsp r = true -> posReac nsp r = true -> 0 < T -> 0 < pr ->
  (forall n, (0 <= n < nsp)%Z -> 0 < cs n) -> rate r T cs gbs pr = Some q ->
  exists qf, 0 < qf /\ q = if rRev r then qf * (1 - exp (reactionGibbs nsp r (potential gbs cs pr))) else qf.
Proof.
  intros HW HG HP HT Hp Hc. unfold rate. destruct (forwardK r T cs) as [k|] eqn:EK; [|discriminate]. pose proof (forwardK_pos _ _ _ _ _ HP HT Hc EK) as Pk.
  cbv zeta. intros E. apply f_equal with (f := fun o => match o with Some x => x | None => 0 end) in E. cbv beta iota in E. subst q.
  pose proof HW as HW'. unfold wfReac in HW'. rewrite !andb_true_iff in HW'. destruct HW' as ((((A & B) & C) & P1) & P2).
  exists (conc (rF r) cs k). rewrite !conc_prod. split; [apply Rmult_lt_0_compat; auto; now apply (prodc_pos nsp)|].
  destruct (rRev r); [|reflexivity].
  assert (HR: reactionGibbs nsp r (potential gbs cs pr) = gibbs (rDG r) gbs + (lsum (rB r) (fun n => ln (cs n)) - lsum (rF r) (fun n => ln (cs n))) - IZR (rKc r) * ln pr).
  { unfold gibbsOK in HG. apply andb_true_iff in HG as [G1 G2]. apply Z.eqb_eq in G2. unfold reactionGibbs. rewrite net_sum by auto.
    assert (EL: forall l, inRange nsp l = true -> lsum l (potential gbs cs pr) = lsum l gbs + lsum l (fun n => ln (cs n)) - IZR (sumPow l) * ln pr).
    { intros l Hl. rewrite (lsum_ext nsp l (potential gbs cs pr) (fun n => gbs n + (ln (cs n) - ln pr))) by
        (auto; intros n Hn; unfold potential; rewrite lnDiv by auto; auto).
      rewrite (lsum_plus l gbs (fun n => ln (cs n) - ln pr)), (lsum_minus l (fun n => ln (cs n)) (fun _ => ln pr)), lsum_const. lra. }
    rewrite !EL by auto. rewrite G2, minus_IZR. rewrite gibbs_lsum. rewrite (lsum_species nsp (rDG r)) by auto.
    rewrite (sumZ_ext 0 nsp (fun n => IZR (power (rDG r) n) * gbs n) (fun n => IZR (net r n) * gbs n)).
    - rewrite (net_sum nsp r gbs HW). lra.
    - intros n Hn. rewrite forallb_forall in G1. specialize (G1 n). assert (In n (zrange 0 nsp)) as I by (apply zrange_in; lia). apply G1, Z.eqb_eq in I. now rewrite I. }
  rewrite HR. rewrite (prodc_exp nsp (rF r)), (prodc_exp nsp (rB r)) by auto. unfold equilK.
  assert (EP: powerRZ pr (rKc r) = exp (IZR (rKc r) * ln pr)) by (rewrite powerRZ_Rpower by auto; reflexivity). rewrite EP.
  set (g := gibbs (rDG r) gbs). set (b := lsum (rB r) _). set (f := lsum (rF r) _). set (c := IZR (rKc r) * ln pr).
  assert (EX: - k / (exp (- g) * exp c) * exp b = - k * exp f * exp (g + (b - f) - c)).
  { replace (exp (g + (b - f) - c)) with (exp (- f) * (exp b * (exp g * exp (- c)))) by (rewrite <- !exp_plus; f_equal; lra).
    rewrite !exp_Ropp. pose proof (exp_pos f). pose proof (exp_pos c). pose proof (exp_pos g). field. repeat split; lra. }
  rewrite EX. lra.
Qed.

(** *** the composition used by the sub-step *)
Lemma clampY_valid nsp Y : validFracs nsp (clampY nsp Y) /\ (forall n, (0 <= n < nsp)%Z -> clampY nsp Y n = withLast nsp (clampY nsp Y) n).
Proof. apply composition_general. intros n Hn. apply Rmax_r. Qed.
Lemma clampY_id nsp Y n : (1 <= nsp)%Z -> validFracs nsp Y -> (0 <= n < nsp)%Z -> clampY nsp Y n = withLast nsp Y n.
Proof.
  intros HN V Hn. unfold clampY. assert (E: forall m, (0 <= m < nsp - 1)%Z -> Rmax (Rmin (Y m) 1) 0 = Y m).
  { intros m Hm. destruct V as (A & _). specialize (A m Hm). rewrite Rmin_left, Rmax_left by lra. auto. }
  rewrite composition_valid. 2:{ apply (validFracs_ext nsp Y); auto. intros. symmetry. auto. }
  apply withLast_ext; auto.
Qed.
Lemma clampY_sum nsp Y : (1 <= nsp)%Z -> sumZ 0 nsp (clampY nsp Y) = 1.
Proof. intros H. destruct (clampY_valid nsp Y) as (V & E). rewrite (sumZ_ext _ _ _ (withLast nsp (clampY nsp Y))) by auto. now apply sum_withLast. Qed.
Lemma clampY_nonneg nsp Y n : (0 <= n < nsp)%Z -> 0 <= clampY nsp Y n.
Proof. intros H. destruct (clampY_valid nsp Y) as (V & E). rewrite E by auto. now apply withLast_nonneg. Qed.
Lemma concs_nonneg nsp th rho Y n : 0 < rho -> positiveMW th nsp -> (0 <= n < nsp)%Z -> 0 <= concs th rho (clampY nsp Y) n.
Proof.
  intros Hr HM Hn. unfold concs. apply Rmult_le_pos; [apply Rmult_le_pos; [lra|now apply clampY_nonneg]|]. apply Rlt_le, Rinv_0_lt_compat. auto.
Qed.
