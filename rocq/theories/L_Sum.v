From Coq Require Import Reals ZArith List Lia Lra.
From Verif Require Import M_Halo S_Sum L_Grid1.
Import ListNotations.
Open Scope R_scope.

Lemma sumZ_ext lo hi f g : (forall i, (lo <= i < hi)%Z -> f i = g i) -> sumZ lo hi f = sumZ lo hi g.
Proof. intros H. unfold sumZ. f_equal. apply map_ext_in. intros a Ha. apply H. now apply zrange_in in Ha. Qed.
Lemma sumZ_plus lo hi f g : sumZ lo hi (fun i => f i + g i) = sumZ lo hi f + sumZ lo hi g.
Proof. unfold sumZ. induction (zrange lo hi) as [|a l IH]; simpl; [lra|]. rewrite IH. lra. Qed.
Lemma sumZ_minus lo hi f g : sumZ lo hi (fun i => f i - g i) = sumZ lo hi f - sumZ lo hi g.
Proof. unfold sumZ. induction (zrange lo hi) as [|a l IH]; simpl; [lra|]. rewrite IH. lra. Qed.
Lemma sumZ_scale lo hi c f : sumZ lo hi (fun i => c * f i) = c * sumZ lo hi f.
Proof. unfold sumZ. induction (zrange lo hi) as [|a l IH]; simpl; [lra|]. rewrite IH. lra. Qed.
Lemma sumZ_0 lo hi : sumZ lo hi (fun _ => 0) = 0.
Proof. unfold sumZ. induction (zrange lo hi) as [|a l IH]; simpl; [lra|]. rewrite IH. lra. Qed.
Lemma sumZ_zero lo hi f : (forall i, (lo <= i < hi)%Z -> f i = 0) -> sumZ lo hi f = 0.
Proof. intros H. rewrite (sumZ_ext lo hi f (fun _ => 0)) by auto. apply sumZ_0. Qed.
Lemma zrange_snoc' lo hi : (lo <= hi)%Z -> zrange lo (hi + 1) = zrange lo hi ++ [hi].
Proof.
  intros H. unfold zrange. replace (Z.to_nat (hi + 1 - lo)) with (Z.to_nat (hi - lo) + 1)%nat by lia.
  rewrite seq_app, map_app. simpl. f_equal. f_equal. lia.
Qed.
Lemma zrange_empty lo hi : (hi <= lo)%Z -> zrange lo hi = [].
Proof. intros H. unfold zrange. replace (Z.to_nat (hi - lo)) with 0%nat by lia. reflexivity. Qed.
Lemma sumZ_snoc lo hi f : (lo <= hi)%Z -> sumZ lo (hi + 1) f = sumZ lo hi f + f hi.
Proof.
  intros H. unfold sumZ. rewrite zrange_snoc', map_app by auto. generalize (map f (zrange lo hi)). intros l.
  induction l as [|a l IH]; simpl; [lra|]. simpl in IH. rewrite IH. lra.
Qed.
Lemma sumZ_empty lo hi f : (hi <= lo)%Z -> sumZ lo hi f = 0.
Proof. intros H. unfold sumZ. now rewrite zrange_empty. Qed.
(** telescoping *)
Lemma sumZ_tele lo hi f : (lo <= hi)%Z -> sumZ lo hi (fun i => f i - f (i + 1)%Z) = f lo - f hi.
Proof.
  intros H. replace hi with (lo + (hi - lo))%Z by lia. assert (0 <= hi - lo)%Z by lia. revert H0. generalize (hi - lo)%Z. clear H hi.
  apply natlike_ind.
  - rewrite Z.add_0_r, sumZ_empty by lia. lra.
  - intros n Hn IH. unfold Z.succ. rewrite Z.add_assoc, sumZ_snoc by lia. rewrite IH. lra.
Qed.
Lemma sumZ_swap l1 h1 l2 h2 f : sumZ l1 h1 (fun i => sumZ l2 h2 (fun j => f i j)) = sumZ l2 h2 (fun j => sumZ l1 h1 (fun i => f i j)).
Proof.
  unfold sumZ at 1 4. induction (zrange l1 h1) as [|a l IH]; simpl.
  - symmetry. apply sumZ_0.
  - rewrite IH, <- sumZ_plus. apply sumZ_ext. intros. unfold sumZ. reflexivity.
Qed.
Lemma sumZ_le lo hi f g : (forall i, (lo <= i < hi)%Z -> f i <= g i) -> sumZ lo hi f <= sumZ lo hi g.
Proof.
  intros H. unfold sumZ. assert (G: forall i, In i (zrange lo hi) -> f i <= g i) by (intros i Hi; apply H; now apply zrange_in in Hi). clear H.
  induction (zrange lo hi) as [|a l IH]; simpl; [lra|]. pose proof (G a (or_introl eq_refl)). assert (forall i, In i l -> f i <= g i) by (intros; apply G; now right). specialize (IH H0). lra.
Qed.

Lemma sum3_ext l h f g : (forall i j k, (fst (fst l) <= i < fst (fst h))%Z -> (snd (fst l) <= j < snd (fst h))%Z -> (snd l <= k < snd h)%Z -> f i j k = g i j k) -> sum3 l h f = sum3 l h g.
Proof. intros H. unfold sum3. repeat (apply sumZ_ext; intros). now apply H. Qed.
Lemma sum3_plus l h f g : sum3 l h (fun i j k => f i j k + g i j k) = sum3 l h f + sum3 l h g.
Proof.
  unfold sum3. rewrite <- sumZ_plus. apply sumZ_ext; intros. rewrite <- sumZ_plus. apply sumZ_ext; intros. apply sumZ_plus.
Qed.

(** divergence theorem on a box *)
Lemma sum3_div l h (F G H : Z -> Z -> Z -> R) : (fst (fst l) <= fst (fst h))%Z -> (snd (fst l) <= snd (fst h))%Z -> (snd l <= snd h)%Z ->
  sum3 l h (fun i j k => (F i j k - F (i+1)%Z j k) + (G i j k - G i (j+1)%Z k) + (H i j k - H i j (k+1)%Z)) =
  sum2 (snd (fst l)) (snd (fst h)) (snd l) (snd h) (fun j k => F (fst (fst l)) j k - F (fst (fst h)) j k) +
  sum2 (fst (fst l)) (fst (fst h)) (snd l) (snd h) (fun i k => G i (snd (fst l)) k - G i (snd (fst h)) k) +
  sum2 (fst (fst l)) (fst (fst h)) (snd (fst l)) (snd (fst h)) (fun i j => H i j (snd l) - H i j (snd h)).
Proof.
  intros H1 H2 H3. rewrite !sum3_plus. f_equal; [f_equal|].
  - unfold sum3, sum2. rewrite sumZ_swap. apply sumZ_ext; intros j Hj. rewrite sumZ_swap. apply sumZ_ext; intros k Hk.
    apply (sumZ_tele _ _ (fun i => F i j k)); auto.
  - unfold sum3, sum2. apply sumZ_ext; intros i Hi. rewrite sumZ_swap. apply sumZ_ext; intros k Hk.
    apply (sumZ_tele _ _ (fun j => G i j k)); auto.
  - unfold sum3, sum2. apply sumZ_ext; intros i Hi. apply sumZ_ext; intros j Hj.
    apply (sumZ_tele _ _ (fun k => H i j k)); auto.
Qed.
