(** Smooth functions and their central differences, for C154. *)
From Coq Require Import Reals ZArith List Bool Lra Lia Psatz.
From Coquelicot Require Import Coquelicot.
From Verif Require Import L_Vec M_Halo M_Grid M_Metrics S_Metrics M_Flux M_FluxKernels S_Order4 S_Order2 P_Order4.
Import ListNotations.
Open Scope R_scope.

(** closure of smooth functions *)
Lemma smooth_ext n : forall f g, (forall x, f x = g x) -> smooth n f -> smooth n g.
Proof.
  induction n as [|n IH]; intros f g E H.
  - intros x. pose proof (H x) as C. apply (continuity_pt_ext f g x E C).
  - destruct H as (f' & D & S). exists f'. split; auto. intros x. specialize (D x). intros eps He. destruct (D eps He) as (d & Hd). exists d. intros h Hn Hh. rewrite <- !E. auto.
Qed.
Lemma smooth_cont n : forall f, smooth n f -> continuity f.
Proof. destruct n; intros f H; auto. destruct H as (f' & D & _). intros x. apply derivable_continuous_pt. exists (f' x). apply D. Qed.
Lemma smooth_less n : forall f, smooth (S n) f -> smooth n f.
Proof. induction n as [|n IH]; intros f H; [apply (smooth_cont 1); auto|]. destruct H as (f' & D & S). exists f'. split; auto. Qed.
Lemma smooth_const n : forall c, smooth n (fun _ => c).
Proof. induction n as [|n IH]; intros c; [apply continuity_const; intros a b; auto|]. exists (fun _ => 0). split; auto. intros x. apply derivable_pt_lim_const. Qed.
Lemma smooth_plus n : forall f g, smooth n f -> smooth n g -> smooth n (fun x => f x + g x).
Proof.
  induction n as [|n IH]; intros f g Hf Hg; [apply (continuity_plus f g); auto|]. destruct Hf as (f' & Df & Sf), Hg as (g' & Dg & Sg).
  exists (fun x => f' x + g' x). split; auto. intros x. apply (derivable_pt_lim_plus f g); auto.
Qed.
Lemma smooth_mult n : forall f g, smooth n f -> smooth n g -> smooth n (fun x => f x * g x).
Proof.
  induction n as [|n IH]; intros f g Hf Hg; [apply (continuity_mult f g); auto|]. pose proof (smooth_less _ _ Hf). pose proof (smooth_less _ _ Hg). destruct Hf as (f' & Df & Sf), Hg as (g' & Dg & Sg).
  exists (fun x => f' x * g x + f x * g' x). split; [intros x; apply (derivable_pt_lim_mult f g); auto|]. apply smooth_plus; auto.
Qed.
Lemma smooth_opp n f : smooth n f -> smooth n (fun x => - f x).
Proof. intros H. apply smooth_ext with (fun x => (-1) * f x); [intros; ring|]. apply smooth_mult; auto. apply smooth_const. Qed.
Lemma smooth_minus n f g : smooth n f -> smooth n g -> smooth n (fun x => f x - g x).
Proof. intros. apply smooth_plus; auto. apply smooth_opp; auto. Qed.
Lemma smooth_inv n : forall f, (forall x, f x <> 0) -> smooth n f -> smooth n (fun x => / f x).
Proof.
  induction n as [|n IH]; intros f Z H; [intros x; apply (continuity_pt_inv f x); auto|]. pose proof (IH f Z (smooth_less _ _ H)) as I. destruct H as (f' & D & S).
  exists (fun x => - (f' x * (/ f x * / f x))). split.
  - intros x. pose proof (derivable_pt_lim_div (fun _ => 1) f x 0 (f' x) (derivable_pt_lim_const 1 x) (D x) (Z x)) as Q.
    intros eps He. destruct (Q eps He) as (d & Hd). exists d. intros h Hn Hh. specialize (Hd h Hn Hh). unfold div_fct, Rsqr in Hd. unfold Rdiv in Hd at 1 2 3 4. rewrite !Rmult_1_l in Hd.
    replace (- (f' x * (/ f x * / f x))) with ((0 * f x - f' x * 1) / (f x * f x)) by (field; auto). exact Hd.
  - apply smooth_opp, smooth_mult; auto. apply smooth_mult; auto.
Qed.
Lemma smooth_div n f g : (forall x, g x <> 0) -> smooth n f -> smooth n g -> smooth n (fun x => f x / g x).
Proof. intros. apply smooth_mult; auto. apply smooth_inv; auto. Qed.
Lemma smooth_shift n x c : forall f, smooth n f -> smooth n (fun h => f (x + h * c)).
Proof.
  assert (A : forall h, derivable_pt_lim (fun h => x + h * c) h c).
  { intros h. apply is_derive_Reals. auto_derive; auto. ring. }
  induction n as [|n IH]; intros f H.
  - intros h. apply (continuity_pt_comp (fun h => x + h * c) f); auto. apply derivable_continuous_pt. exists c. apply A.
  - destruct H as (f' & D & S). exists (fun h => f' (x + h * c) * c). split; [intros h; apply (derivable_pt_lim_comp (fun h => x + h * c) f); auto|].
    apply smooth_mult; [apply IH; auto|apply smooth_const].
Qed.

(** the central difference of a smooth function is second order *)
Lemma grow (f g f' g' : R -> R) b : (forall x, derivable_pt_lim f x (f' x)) -> (forall x, derivable_pt_lim g x (g' x)) ->
  f 0 <= g 0 -> (forall x, 0 <= x <= b -> f' x <= g' x) -> forall x, 0 <= x <= b -> f x <= g x.
Proof.
  intros Df Dg Z L x H. destruct (Req_dec x 0) as [->|N]; auto.
  destruct (MVT_cor2 (fun t => g t - f t) (fun t => g' t - f' t) 0 x ltac:(lra)) as (c & E & I); [intros c _; apply derivable_pt_lim_minus; auto|].
  pose proof (L c ltac:(lra)). assert (0 <= (g' c - f' c) * (x - 0)) by (apply Rmult_le_pos; lra). lra.
Qed.
Lemma neg_arg f f' x : (forall x, derivable_pt_lim f x (f' x)) -> derivable_pt_lim (fun h => f (- h)) x (- f' (- x)).
Proof. intros D. replace (- f' (- x)) with (f' (- x) * -1) by ring. apply (derivable_pt_lim_comp (fun h => - h) f); auto. apply (derivable_pt_lim_opp id). apply derivable_pt_lim_id. Qed.
Lemma central G d : smooth 3 G -> derivable_pt_lim G 0 d -> orderAt 2 (fun h => (G h - G (- h)) / h) (2 * d).
Proof.
  intros (G1 & D1 & G2 & D2 & G3 & D3 & C3) Dd. assert (d = G1 0) as -> by (apply (uniqueness_limite G 0); auto).
  destruct (continuity_ab_maj (fun x => Rabs (G3 x)) (-1) 1 ltac:(lra)) as (m & Hm & _). { intros c _. apply (continuity_pt_comp G3 Rabs); [apply C3|apply Rcontinuity_abs]. }
  set (M := Rabs (G3 m)) in Hm. assert (HM : forall x, -1 <= x <= 1 -> Rabs (G3 x) <= M) by auto. clearbody M. clear Hm.
  assert (S3 : forall x, 0 <= x <= 1 -> Rabs (G3 x + G3 (- x)) <= 2 * M).
  { intros x Hx. eapply Rle_trans; [apply Rabs_triang|]. pose proof (HM x ltac:(lra)). pose proof (HM (- x) ltac:(lra)). lra. }
  assert (P1 : forall x, derivable_pt_lim (fun t => 2 * M * t) x (2 * M)). { intros x. apply is_derive_Reals. auto_derive; auto. ring. }
  assert (P2 : forall x, derivable_pt_lim (fun t => M * t ^ 2) x (2 * M * x)). { intros x. apply is_derive_Reals. auto_derive; auto. ring. }
  assert (P3 : forall x, derivable_pt_lim (fun t => M / 3 * t ^ 3) x (M * x ^ 2)). { intros x. apply is_derive_Reals. auto_derive; auto. field. }
  assert (S2 : forall x, 0 <= x <= 1 -> Rabs (G2 x - G2 (- x)) <= 2 * M * x).
  { assert (E : forall x, derivable_pt_lim (fun t => G2 t - G2 (- t)) x (G3 x + G3 (- x))).
    { intros x. replace (G3 x + G3 (- x)) with (G3 x - - G3 (- x)) by ring. apply (derivable_pt_lim_minus G2); auto. apply neg_arg; auto. }
    assert (E' : forall x, derivable_pt_lim (fun t => - (G2 t - G2 (- t))) x (- (G3 x + G3 (- x)))) by (intros x; apply (derivable_pt_lim_opp (fun t => G2 t - G2 (- t))); auto).
    intros x Hx. apply Rabs_le. split.
    - pose proof (grow _ _ _ _ 1 E' P1) as Q. cbv beta in Q. rewrite Ropp_0 in Q. assert (- (G2 x - G2 (- x)) <= 2 * M * x); [|lra]. apply Q; auto; [lra|]. intros t Ht. specialize (S3 t Ht). apply Rabs_le_between in S3. lra.
    - pose proof (grow _ _ _ _ 1 E P1) as Q. cbv beta in Q. rewrite Ropp_0 in Q. apply Q; auto; [lra|]. intros t Ht. specialize (S3 t Ht). apply Rabs_le_between in S3. lra. }
  assert (S1 : forall x, 0 <= x <= 1 -> Rabs (G1 x + G1 (- x) - 2 * G1 0) <= M * x ^ 2).
  { assert (E : forall x, derivable_pt_lim (fun t => G1 t + G1 (- t) - 2 * G1 0) x (G2 x - G2 (- x))).
    { intros x. replace (G2 x - G2 (- x)) with (G2 x + - G2 (- x) - 0) by ring. apply (derivable_pt_lim_minus (fun t => G1 t + G1 (- t)) (fun _ => 2 * G1 0)); [|apply derivable_pt_lim_const]. apply (derivable_pt_lim_plus G1); auto. apply neg_arg; auto. }
    assert (E' : forall x, derivable_pt_lim (fun t => - (G1 t + G1 (- t) - 2 * G1 0)) x (- (G2 x - G2 (- x)))) by (intros x; apply (derivable_pt_lim_opp (fun t => G1 t + G1 (- t) - 2 * G1 0)); auto).
    intros x Hx. apply Rabs_le. split.
    - pose proof (grow _ _ _ _ 1 E' P2) as Q. cbv beta in Q. rewrite Ropp_0 in Q. assert (- (G1 x + G1 (- x) - 2 * G1 0) <= M * x ^ 2); [|lra]. apply Q; auto; [lra|]. intros t Ht. specialize (S2 t Ht). apply Rabs_le_between in S2. lra.
    - pose proof (grow _ _ _ _ 1 E P2) as Q. cbv beta in Q. rewrite Ropp_0 in Q. apply Q; auto; [lra|]. intros t Ht. specialize (S2 t Ht). apply Rabs_le_between in S2. lra. }
  assert (S0 : forall x, 0 <= x <= 1 -> Rabs (G x - G (- x) - 2 * G1 0 * x) <= M / 3 * x ^ 3).
  { assert (E : forall x, derivable_pt_lim (fun t => G t - G (- t) - 2 * G1 0 * t) x (G1 x + G1 (- x) - 2 * G1 0)).
    { intros x. replace (G1 x + G1 (- x) - 2 * G1 0) with (G1 x - - G1 (- x) - 2 * G1 0 * 1) by ring. apply (derivable_pt_lim_minus (fun t => G t - G (- t)) (fun t => 2 * G1 0 * t)); [|apply (derivable_pt_lim_scal id), derivable_pt_lim_id]. apply (derivable_pt_lim_minus G); auto. apply neg_arg; auto. }
    assert (E' : forall x, derivable_pt_lim (fun t => - (G t - G (- t) - 2 * G1 0 * t)) x (- (G1 x + G1 (- x) - 2 * G1 0))) by (intros x; apply (derivable_pt_lim_opp (fun t => G t - G (- t) - 2 * G1 0 * t)); auto).
    intros x Hx. apply Rabs_le. split.
    - pose proof (grow _ _ _ _ 1 E' P3) as Q. cbv beta in Q. rewrite Ropp_0 in Q. assert (- (G x - G (- x) - 2 * G1 0 * x) <= M / 3 * x ^ 3); [|lra]. apply Q; auto; [lra|]. intros t Ht. specialize (S1 t Ht). apply Rabs_le_between in S1. lra.
    - pose proof (grow _ _ _ _ 1 E P3) as Q. cbv beta in Q. rewrite Ropp_0 in Q. apply Q; auto; [lra|]. intros t Ht. specialize (S1 t Ht). apply Rabs_le_between in S1. lra. }
  exists (M / 3), 1. split; [lra|]. intros h Hh. specialize (S0 h ltac:(lra)).
  replace ((G h - G (- h)) / h - 2 * G1 0) with ((G h - G (- h) - 2 * G1 0 * h) / h) by (field; lra). unfold Rdiv at 1. rewrite Rabs_mult, (Rabs_pos_eq (/ h)) by (apply Rlt_le, Rinv_0_lt_compat; lra).
  apply Rle_trans with (M / 3 * h ^ 3 * / h); [apply Rmult_le_compat_r; auto; apply Rlt_le, Rinv_0_lt_compat; lra|]. apply Req_le. field. lra.
Qed.

(** derivative of a smooth function, as Coquelicot writes it *)
Lemma smooth_ex n f : smooth (S n) f -> forall x, ex_derive f x.
Proof. intros (f' & D & _) x. exists (f' x). apply is_derive_Reals. auto. Qed.
Lemma second_order f g w x l d : smooth 3 (fun h => f g (fun m => gasCell w (x + h * (IZR m + 1))) l) ->
  (forall h, f g (fun m => gasCell w (x + - h * (IZR m + 1))) l = f g (fun m => gasCell w (x + h * IZR m)) l) ->
  derivable_pt_lim (fun h => f g (fun m => gasCell w (x + h * (IZR m + 1))) l) 0 (d / 2) -> orderAt 2 (fun h => leaving f g w h x l) d.
Proof.
  intros S E D. pose proof (central _ _ S D) as Q. replace (2 * (d / 2)) with d in Q by field. destruct Q as (C & h0 & P & H). exists C, h0. split; auto. intros h Hh. specialize (H h Hh). cbv beta in H. rewrite E in H. exact H.
Qed.
