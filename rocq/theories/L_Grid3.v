(** Rotations, annulus. *)
From Coq Require Import Reals ZArith String List Bool Lia Lra Nsatz.
From Verif Require Import M_Topology S_Topology M_Halo S_Halo L_Halo3 M_Grid S_Grid L_Grid1 L_Grid2.
Import ListNotations.
Open Scope R_scope.

Ltac vd := repeat match goal with v : vec |- _ => destruct v as [[? ?] ?] end; unfold vadd, vsub, vscale, dot, vx, vy, vz in *; cbn [fst snd] in *.
Lemma vec_eq (a b : vec) : vx a = vx b -> vy a = vy b -> vz a = vz b -> a = b.
Proof. vd. intros -> -> ->. reflexivity. Qed.
Ltac veq := apply vec_eq; unfold vx, vy, vz; cbn [fst snd].

Lemma rotate_add n t a b : rotate n t (vadd a b) = vadd (rotate n t a) (rotate n t b).
Proof. unfold rotate. vd. veq; ring. Qed.
Lemma rotate_scale n t s a : rotate n t (vscale s a) = vscale s (rotate n t a).
Proof. unfold rotate. vd. veq; ring. Qed.
Lemma rotate_axis n t : dot n n = 1 -> rotate n t n = n.
Proof. unfold rotate. vd. intros H. veq; nsatz. Qed.
Lemma rotate_0 n p : rotate n 0 p = p.
Proof. unfold rotate. rewrite cos_0, sin_0. vd. veq; ring. Qed.

Lemma rotate_dot n t a b : dot n n = 1 -> dot (rotate n t a) (rotate n t b) = dot a b.
Proof.
  intros H. pose proof (sin2_cos2 t) as Ht. unfold Rsqr in Ht. revert Ht.
  unfold rotate. generalize (sin t) (cos t). intros s c Ht. vd. nsatz.
Qed.
Lemma rotate_plus n t u p : dot n n = 1 -> rotate n t (rotate n u p) = rotate n (t + u) p.
Proof.
  intros H. unfold rotate. rewrite cos_plus, sin_plus. generalize (sin t) (cos t) (sin u) (cos u). intros s c s' c'. vd. veq; nsatz.
Qed.

Lemma dot_pos a : 0 <= dot a a.
Proof. vd. nra. Qed.
Lemma norm_sq a : norm a * norm a = dot a a.
Proof. unfold norm. apply sqrt_sqrt. apply dot_pos. Qed.
Lemma norm_nonneg a : 0 <= norm a.
Proof. apply sqrt_pos. Qed.
Lemma norm_rotate n t a : dot n n = 1 -> norm (rotate n t a) = norm a.
Proof. intros H. unfold norm. now rewrite rotate_dot. Qed.
Lemma norm_pos a : dot a a <> 0 -> 0 < norm a.
Proof. intros H. unfold norm. apply sqrt_lt_R0. pose proof (dot_pos a). lra. Qed.
Lemma dot_scale s t a b : dot (vscale s a) (vscale t b) = s * t * dot a b.
Proof. vd. ring. Qed.
Lemma norm_scale s a : 0 <= s -> norm (vscale s a) = s * norm a.
Proof.
  intros H. unfold norm. rewrite dot_scale. rewrite sqrt_mult_alt by nra. rewrite sqrt_square by auto. reflexivity.
Qed.
Lemma unit_of a : dot a a <> 0 -> dot (vscale (/ norm a) a) (vscale (/ norm a) a) = 1.
Proof.
  intros H. rewrite dot_scale. rewrite <- norm_sq. pose proof (norm_pos a H). field. lra.
Qed.
Lemma vscale_vscale s t a : vscale s (vscale t a) = vscale (s * t) a.
Proof. vd. veq; ring. Qed.
Lemma vscale_1 a : vscale 1 a = a.
Proof. vd. veq; ring. Qed.
Lemma vadd_scale s t a : vadd (vscale s a) (vscale t a) = vscale (s + t) a.
Proof. vd. veq; ring. Qed.
Lemma unscale a : dot a a <> 0 -> a = vscale (norm a) (vscale (/ norm a) a).
Proof. intros H. pose proof (norm_pos a H). rewrite vscale_vscale. rewrite Rinv_r by lra. now rewrite vscale_1. Qed.
Lemma dot_add_r a b c : dot a (vadd b c) = dot a b + dot a c.
Proof. vd. ring. Qed.
Lemma dot_scale_l s a b : dot (vscale s a) b = s * dot a b. Proof. vd. ring. Qed.
Lemma dot_scale_r s a b : dot a (vscale s b) = s * dot a b. Proof. vd. ring. Qed.
Lemma vadd_assoc a b c : vadd (vadd a b) c = vadd a (vadd b c). Proof. vd. veq; ring. Qed.
Lemma vadd_comm a b : vadd a b = vadd b a. Proof. vd. veq; ring. Qed.

Lemma dot_axis_rotate n t a : dot n n = 1 -> dot n (rotate n t a) = dot n a.
Proof. intros H. rewrite <- (rotate_axis n t H) at 1. now apply rotate_dot. Qed.

Lemma Rgtb_false a b : a <= b -> Rgtb a b = false.
Proof. intros H. unfold Rgtb. destruct (Rlt_dec b a); auto; exfalso; lra. Qed.
Lemma Rgtb_true a b : b < a -> Rgtb a b = true.
Proof. intros H. unfold Rgtb. destruct (Rlt_dec b a); auto; exfalso; lra. Qed.

(** failure for two or more axial blocks *)
Lemma annulusBlock_fails p2 p3 sweep th m d : (2 <= fst (fst m))%Z -> (0 < snd (fst m))%Z -> (0 < snd m)%Z ->
  dot p2 p2 <> 0 -> dot p3 p3 <> 0 -> dot p2 p3 = 0 ->
  / 10000000 < 2 * (dot p2 p2 / (IZR (fst (fst m)) * IZR (fst (fst m)))) ->
  annulusBlock p2 p3 sweep th m d 1 0 0 = None.
Proof.
  intros M0 M1 M2 N2 N3 O Big. unfold annulusBlock.
  set (n12 := vscale (/ norm p2) p2). set (m0 := IZR (fst (fst m))) in *.
  assert (Hm: 0 < m0) by (apply IZR_lt; lia).
  pose proof (unit_of p2 N2) as U. fold n12 in U. pose proof (norm_pos p2 N2) as NP.
  set (q := rotate n12 (IZR 0 * (sweep / IZR (snd m)) * PI / 180) p3).
  unfold annulus.
  assert (D: dot (vscale (norm p2 / m0 * (IZR 1 + 1)) n12)
     (vadd (vadd q (vscale (norm p2 / m0 * IZR 1) n12)) (vscale (th / IZR (snd (fst m)) * IZR 0) (vscale (/ norm q) q)))
     = 2 * (dot p2 p2 / (m0 * m0))).
  { rewrite dot_scale_l, !dot_add_r, !dot_scale_r.
    assert (Q0: dot n12 q = 0). { unfold q. rewrite dot_axis_rotate by auto. unfold n12. rewrite dot_scale_l, O. ring. }
    rewrite Q0, U, !Rmult_0_r. rewrite <- norm_sq. field. lra. }
  rewrite D. rewrite Rabs_right.
  - rewrite Rgtb_true; auto.
  - apply Rle_ge. apply Rmult_le_pos; [lra|]. unfold Rdiv; apply Rmult_le_pos; [apply dot_pos|left; apply Rinv_0_lt_compat; nra].
Qed.

Lemma sequence_none {A B} (f : A -> option B) l x : In x l -> f x = None -> sequence (map f l) = None.
Proof.
  induction l as [|a l IH]; intros Hin E; [destruct Hin|]. destruct Hin as [->|H]; simpl.
  - rewrite E. reflexivity.
  - rewrite (IH H E). destruct (f a); reflexivity.
Qed.
Lemma sequence_some {A B} (f : A -> option B) l : (forall x, In x l -> f x <> None) ->
  exists r, sequence (map f l) = Some r /\ forall x y, In x l -> f x = Some y -> In y r.
Proof.
  induction l as [|a l IH]; intros H; simpl.
  - exists []. split; auto.
  - destruct IH as [r [E P]]; [intros; apply H; now right|]. destruct (f a) as [b|] eqn:Ea; [|exfalso; apply (H a); [now left|auto]].
    rewrite E. exists (b :: r). split; auto. intros x y [->|Hx] Ex; [left; congruence|right; eauto].
Qed.

Lemma annulus_fails nb p2 p3 sweep th m d : (2 <= co m I)%Z -> (0 < co m J)%Z -> (0 < co m K)%Z ->
  dot p2 p2 <> 0 -> dot p3 p3 <> 0 -> dot p2 p3 = 0 ->
  / 10000000 < 2 * (dot p2 p2 / (IZR (co m I) * IZR (co m I))) ->
  multiBlockAnnulus nb p2 p3 sweep th m d = None.
Proof.
  intros M0 M1 M2 N2 N3 O Big. unfold multiBlockAnnulus.
  repeat match goal with |- (if ?b then None else _) = None => destruct b; [reflexivity|] end.
  apply (sequence_none _ _ (1,0,0)%Z).
  - apply triples3_in. destruct m as [[m0 m1] m2]. intros []; cbn [co fst snd] in *; lia.
  - rewrite annulusBlock_fails; auto.
Qed.

(** success and geometry for a single axial block *)
Lemma annulusBlock_ok p2 p3 sweep th m d j k : fst (fst m) = 1%Z -> (0 < snd (fst m))%Z -> (0 < snd m)%Z ->
  dot p2 p2 <> 0 -> dot p3 p3 <> 0 -> dot p2 p3 = 0 -> 0 <= sweep <= 360 -> 0 <= th ->
  (2 <= ni d)%Z -> (2 <= nj d)%Z -> (2 <= nk d)%Z -> (0 <= j < snd (fst m))%Z -> (0 <= k < snd m)%Z ->
  exists f, annulusBlock p2 p3 sweep th m d 0 j k = Some f /\
   forall a b c, (0 <= c)%Z -> f a b c = annulusNode p2 p3 sweep th (IZR a / IZR (ni d - 1))
       (IZR (j * (nj d - 1) + b) / IZR (snd (fst m) * (nj d - 1))) (IZR (k * (nk d - 1) + c) / IZR (snd m * (nk d - 1))).
Proof.
  intros M0 M1 M2 N2 N3 O Sw Th D1 D2 D3 Hj Hk. unfold annulusBlock. rewrite M0.
  set (n12 := vscale (/ norm p2) p2). pose proof (unit_of p2 N2) as U. fold n12 in U. pose proof (norm_pos p2 N2) as NP.
  pose proof (norm_pos p3 N3) as NP3.
  set (m1 := IZR (snd (fst m))). set (m2 := IZR (snd m)).
  assert (Hm1: 0 < m1) by (apply IZR_lt; lia). assert (Hm2: 0 < m2) by (apply IZR_lt; lia).
  set (tk := IZR k * (sweep / m2) * PI / 180). set (q := rotate n12 tk p3).
  assert (Nq: norm q = norm p3) by (apply norm_rotate; auto).
  set (n13 := vscale (/ norm p3) p3).
  assert (Eq: vscale (/ norm q) q = rotate n12 tk n13). { rewrite Nq. unfold n13, q. now rewrite rotate_scale. }
  rewrite Eq. set (n13k := rotate n12 tk n13).
  assert (U3: dot n13k n13k = 1). { unfold n13k. rewrite rotate_dot by auto. apply unit_of; auto. }
  assert (P2: vscale (norm p2 / 1 * (0 + 1)) n12 = p2).
  { unfold n12. rewrite vscale_vscale. replace (norm p2 / 1 * (0 + 1) * / norm p2) with 1 by (field; lra). apply vscale_1. }
  rewrite P2.
  assert (Eq2: q = vscale (norm p3) n13k). { unfold n13k, q. rewrite <- rotate_scale. unfold n13. rewrite <- unscale by auto. reflexivity. }
  set (rj := norm p3 + th / m1 * IZR j).
  assert (Rj: 0 < rj).
  { unfold rj. assert (0 <= th / m1 * IZR j); [|lra]. apply Rmult_le_pos; [|apply IZR_le; lia].
    unfold Rdiv. apply Rmult_le_pos; auto. left. now apply Rinv_0_lt_compat. }
  assert (P3: vadd (vadd q (vscale (norm p2 / 1 * 0) n12)) (vscale (th / m1 * IZR j) n13k) = vscale rj n13k).
  { replace (norm p2 / 1 * 0) with 0 by (field). rewrite Eq2. unfold rj. generalize (th / m1 * IZR j) (norm p3). intros. clear. vd. veq; ring. }
  rewrite P3.
  assert (DD: dot p2 n13k = 0).
  { rewrite (unscale p2 N2). fold n12. rewrite dot_scale_l. unfold n13k. rewrite dot_axis_rotate by auto. unfold n13, n12.
    rewrite dot_scale_l, dot_scale_r, O. ring. }
  unfold annulus. rewrite dot_scale_r, DD. rewrite Rmult_0_r, Rabs_R0.
  rewrite (Rgtb_false 0) by (left; apply Rinv_0_lt_compat; lra).
  assert (SD: 0 <= sweep / m2 <= 360).
  { assert (1 <= m2) by (apply IZR_le; lia). split.
    - unfold Rdiv. apply Rmult_le_pos; [lra|]. left. now apply Rinv_0_lt_compat.
    - apply Rmult_le_reg_r with m2; auto. unfold Rdiv. rewrite Rmult_assoc, Rinv_l by lra. nra. }
  rewrite (Rabs_right (sweep / m2)) by lra. rewrite (Rgtb_false (-360)) by lra. rewrite (Rgtb_false (sweep / m2)) by lra. cbn [orb].
  eexists. split; [reflexivity|]. intros a b c Hc. cbv beta.
  fold n12.
  assert (N13': vscale (/ norm (vscale rj n13k)) (vscale rj n13k) = n13k).
  { rewrite norm_scale by lra. unfold norm. rewrite U3, sqrt_1. rewrite vscale_vscale.
    replace (/ (rj * 1) * rj) with 1 by (field; lra). apply vscale_1. }
  rewrite N13'.
  assert (I1: IZR (ni d - 1) <> 0) by (apply not_0_IZR; lia). assert (I2: IZR (nj d - 1) <> 0) by (apply not_0_IZR; lia).
  assert (I3: IZR (nk d - 1) <> 0) by (apply not_0_IZR; lia).
  assert (Base: vadd (vadd (vscale rj n13k) (vscale (norm p2 / IZR (ni d - 1) * IZR a) n12)) (vscale (th / m1 / IZR (nj d - 1) * IZR b) n13k)
     = rotate n12 tk (vadd p3 (vadd (vscale (IZR a / IZR (ni d - 1)) p2) (vscale (IZR (j * (nj d - 1) + b) / IZR (snd (fst m) * (nj d - 1)) * th) n13)))).
  { rewrite !rotate_add, !rotate_scale. rewrite (unscale p2 N2) at 2. fold n12. rewrite rotate_scale, rotate_axis by auto.
    fold q. fold n13k. rewrite Eq2. rewrite plus_IZR, !mult_IZR. fold m1. unfold rj.
    rewrite vscale_vscale.
    replace (norm p2 / IZR (ni d - 1) * IZR a) with (IZR a / IZR (ni d - 1) * norm p2) by (field; auto).
    replace ((IZR j * IZR (nj d - 1) + IZR b) / (m1 * IZR (nj d - 1)) * th) with (th / m1 * IZR j + th / m1 / IZR (nj d - 1) * IZR b) by (field; split; [auto|lra]).
    generalize (IZR a / IZR (ni d - 1) * norm p2) (th / m1 * IZR j) (th / m1 / IZR (nj d - 1) * IZR b) (norm p3).
    clear. intros. vd. veq; ring. }
  unfold annulusNode. fold n12. fold n13. rewrite Base.
  destruct (Z.eqb_spec c 0) as [->|Nc].
  - f_equal. unfold tk. rewrite Z.add_0_r, !mult_IZR. fold m2. field. lra.
  - rewrite rotate_plus by auto. f_equal. unfold tk. rewrite plus_IZR, !mult_IZR. fold m2. field. split; auto; lra.
Qed.
