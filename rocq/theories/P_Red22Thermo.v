(** C146: the thermodynamic functions of the reduced ethylene mechanism where their formula changes, at 1000 K.
    EG[n] = exp(S/R - H/(R T)) of species n, from which every equilibrium constant of the mechanism is built (chem_C2H4_Air_Red22.cpp:136-411), is computed from
    one polynomial up to 1000 K and from another above.  For 30 of the 31 species the two meet to better than one part in 50 000.  For CH2CHO (EG[26]) they do not: crossing
    1000 K divides EG[26] by more than three, and the reverse rates of the reactions that make or consume CH2CHO jump by that factor.  With the sign of its T^3 coefficient
    below 1000 K (line 392) reversed, the two polynomials of CH2CHO meet like the others. *)
From Coq Require Import Reals ZArith List Bool Lia Lra Psatz.
From Verif Require Import M_Halo M_Thermo M_Chem M_Red22 M_Red22_Tables S_Chem S_Red22 S_Red22Thermo L_LnTen.
Import ListNotations.
Open Scope R_scope.

(** the exponent, as one function of its seven coefficients *)
Definition smh (a : list decimal) (T : R) : R :=
  let c k := decR (nth k a (D 0 0)) in
  c 0%nat + c 1%nat * (1 / T) + c 2%nat * (ln T - 1) + c 3%nat * T + c 4%nat * T ^ 2 + c 5%nat * T ^ 3 + c 6%nat * T ^ 4.
Lemma eg_low m T n : T <= 1000 -> eg22 m T n = exp (smh (nth n (mLow m) []) T).
Proof. intros L. unfold eg22, smh. destruct (Rlt_dec 1000 T); [lra|]. reflexivity. Qed.
Lemma eg_high m T n : 1000 < T -> eg22 m T n = exp (smh (nth n (mHigh m) []) T).
Proof. intros L. unfold eg22, smh. destruct (Rlt_dec 1000 T); [|lra]. reflexivity. Qed.
Lemma continuity_ln T : 0 < T -> continuity_pt ln T.
Proof. intros P. apply derivable_continuous_pt. exists (/ T). now apply derivable_pt_lim_ln. Qed.
Lemma smh_cont a T : 0 < T -> continuity_pt (smh a) T.
Proof.
  intros P. unfold smh.
  assert (I : continuity_pt id T) by (apply derivable_continuous_pt, derivable_pt_id).
  assert (C : forall c, continuity_pt (fct_cte c) T) by (intros c; apply derivable_continuous_pt, derivable_pt_const).
  assert (W : forall n, continuity_pt (fun x => x ^ n) T) by (intros n; apply derivable_continuous_pt, derivable_pt_pow).
  assert (M : forall c f, continuity_pt f T -> continuity_pt (fun x => c * f x) T) by (intros c f F; apply (continuity_pt_mult (fct_cte c) f); auto).
  repeat apply (continuity_pt_plus (fun x => _) (fun x => _)).
  - apply C.
  - apply M. apply (continuity_pt_div (fct_cte 1) id); auto. unfold id. lra.
  - apply M. apply (continuity_pt_minus ln (fct_cte 1)); auto. now apply continuity_ln.
  - now apply M.
  - apply M, W.
  - apply M, W.
  - apply M, W.
Qed.
Lemma expsmh_cont a T : 0 < T -> continuity_pt (fun x => exp (smh a x)) T.
Proof. intros P. apply (continuity_pt_comp (smh a) exp); [now apply smh_cont|]. apply derivable_continuous_pt, derivable_pt_exp. Qed.
Lemma cont_eps f T : continuity_pt f T -> forall eps, 0 < eps -> exists d, 0 < d /\ forall x, Rabs (x - T) < d -> Rabs (f x - f T) < eps.
Proof.
  intros H eps E. destruct (H eps E) as (d & Pd & K). exists d. split; [auto|]. intros x X.
  destruct (Req_EM_T x T) as [-> | N]; [rewrite Rminus_diag_eq by reflexivity; rewrite Rabs_R0; auto|].
  apply (K x). split; [split; [exact I|auto]|exact X].
Qed.

Lemma eg_jump m n : jumpsBy (fun T => eg22 m T n) 1000 (exp (smh (nth n (mHigh m) []) 1000 - smh (nth n (mLow m) []) 1000)).
Proof.
  intros eps E. rewrite (eg_low m 1000 n (Rle_refl _)). set (h := nth n (mHigh m) []). set (l := nth n (mLow m) []).
  pose proof (exp_pos (smh l 1000)) as P.
  destruct (cont_eps _ _ (expsmh_cont h 1000 ltac:(lra)) (eps * exp (smh l 1000)) ltac:(now apply Rmult_lt_0_compat)) as (d & Pd & K).
  exists d. split; [auto|]. intros T [A B]. rewrite eg_high by auto. fold h.
  assert (Q := K T ltac:(rewrite Rabs_right; lra)). cbv beta in Q.
  unfold Rminus at 2. rewrite exp_plus, exp_Ropp.
  replace (exp (smh h T) / exp (smh l 1000) - exp (smh h 1000) * / exp (smh l 1000)) with ((exp (smh h T) - exp (smh h 1000)) * / exp (smh l 1000)) by (field; lra).
  rewrite Rabs_mult, (Rabs_right (/ exp (smh l 1000))) by (apply Rle_ge, Rlt_le, Rinv_0_lt_compat; auto).
  apply Rmult_lt_reg_r with (exp (smh l 1000)); [auto|]. rewrite Rmult_assoc, Rinv_l by lra. lra.
Qed.
(** away from 1000 K every one of them is continuous, and it reaches its value at 1000 K from below *)
Theorem C146_smooth : forall n,
  (forall T, 0 < T -> T <> 1000 -> continuity_pt (fun T => eg22 red22 T n) T) /\ reaches (fun T => eg22 red22 T n) 1000.
Proof.
  intros n. split.
  - intros T P N. destruct (Rlt_dec 1000 T) as [A|A].
    + intros eps E. destruct (cont_eps _ _ (expsmh_cont (nth n (mHigh red22) []) T P) eps E) as (d & Pd & K).
      exists (Rmin d (T - 1000)). split; [apply Rmin_glb_lt; lra|]. intros x [_ X]. unfold dist in *; simpl in *; unfold R_dist in *.
      pose proof (Rmin_l d (T - 1000)). pose proof (Rmin_r d (T - 1000)). apply Rabs_def2 in X as [X1 X2].
      rewrite !eg_high by lra. apply K. apply Rabs_def1; lra.
    + intros eps E. destruct (cont_eps _ _ (expsmh_cont (nth n (mLow red22) []) T P) eps E) as (d & Pd & K).
      exists (Rmin d (1000 - T)). split; [apply Rmin_glb_lt; lra|]. intros x [_ X]. unfold dist in *; simpl in *; unfold R_dist in *.
      pose proof (Rmin_l d (1000 - T)). pose proof (Rmin_r d (1000 - T)). apply Rabs_def2 in X as [X1 X2].
      rewrite !eg_low by lra. apply K. apply Rabs_def1; lra.
  - intros eps E. destruct (cont_eps _ _ (expsmh_cont (nth n (mLow red22) []) 1000 ltac:(lra)) eps E) as (d & Pd & K).
    exists d. split; [auto|]. intros T [A B]. rewrite !eg_low by lra. apply K. apply Rabs_def1; lra.
Qed.

(** the exponents at 1000 K, in units of 10^-45, between the values for ln 10 = 2.302585092 and 2.302585096 *)
Definition decZ (d : decimal) : Z := let 'D m e := d in (m * 10 ^ (e + 36))%Z.
Definition fits (d : decimal) : bool := let 'D m e := d in (0 <=? e + 36)%Z.
Lemma decZ_spec d : fits d = true -> IZR (decZ d) = decR d * 10 ^ 36.
Proof.
  destruct d as [m e]. unfold fits, decZ, decR. intros F. apply Z.leb_le in F. rewrite mult_IZR, <- (Z2Nat.id (e + 36)) by auto. rewrite <- pow_IZR.
  rewrite pow_powerRZ, Z2Nat.id by auto. rewrite powerRZ_add by lra. change (powerRZ 10 36) with (10 ^ 36). ring.
Qed.
(** 10^45 times smh at 1000, without and with the coefficient of 3 ln 10 *)
Definition baseZ (a : list decimal) : Z :=
  let c k := decZ (nth k a (D 0 0)) in (c 0%nat * 10 ^ 9 + c 1%nat * 10 ^ 6 - c 2%nat * 10 ^ 9 + c 3%nat * 10 ^ 12 + c 4%nat * 10 ^ 15 + c 5%nat * 10 ^ 18 + c 6%nat * 10 ^ 21)%Z.
Definition fits7 (a : list decimal) : bool := forallb (fun k => fits (nth k a (D 0 0))) (seq 0 7).
Lemma ln1000 : ln 1000 = 3 * ln 10.
Proof. replace 1000 with (10 ^ 3) by ring. rewrite ln_pow' by lra. simpl. ring. Qed.
Lemma base_spec a : fits7 a = true -> smh a 1000 * 10 ^ 45 = IZR (baseZ a) + IZR (decZ (nth 2 a (D 0 0))) * 10 ^ 9 * (3 * ln 10).
Proof.
  intros F. unfold fits7 in F. rewrite forallb_forall in F. assert (G : forall k, (k < 7)%nat -> IZR (decZ (nth k a (D 0 0))) = decR (nth k a (D 0 0)) * 10 ^ 36).
  { intros k K. apply decZ_spec, F, in_seq. lia. }
  unfold baseZ, smh. rewrite !plus_IZR, minus_IZR, !plus_IZR, !mult_IZR, !G by lia. rewrite ln1000.
  change (IZR (10 ^ 9)) with (1000000000). change (IZR (10 ^ 6)) with 1000000. change (IZR (10 ^ 12)) with 1000000000000. change (IZR (10 ^ 15)) with 1000000000000000.
  change (IZR (10 ^ 18)) with 1000000000000000000. change (IZR (10 ^ 21)) with 1000000000000000000000.
  generalize (ln 10) (decR (nth 0 a (D 0 0))) (decR (nth 1 a (D 0 0))) (decR (nth 2 a (D 0 0))) (decR (nth 3 a (D 0 0))) (decR (nth 4 a (D 0 0))) (decR (nth 5 a (D 0 0))) (decR (nth 6 a (D 0 0))).
  intros. field.
Qed.
Definition gapZ (h l : list decimal) (lg : Z) : Z := (baseZ h - baseZ l + (decZ (nth 2 h (D 0 0)) - decZ (nth 2 l (D 0 0))) * 3 * lg)%Z.
Definition between (lo hi : Z) (h l : list decimal) : bool :=
  fits7 h && fits7 l && (lo <=? gapZ h l 2302585092)%Z && (lo <=? gapZ h l 2302585096)%Z && (gapZ h l 2302585092 <=? hi)%Z && (gapZ h l 2302585096 <=? hi)%Z.
Lemma linear_between A B x lo hi x0 x1 : x0 <= x <= x1 -> lo <= A + B * x0 <= hi -> lo <= A + B * x1 <= hi -> lo <= A + B * x <= hi.
Proof. intros X P Q. assert (D : 0 <= B \/ B <= 0) by lra. destruct D as [D|D]; [assert (B * x0 <= B * x) by (apply Rmult_le_compat_l; lra); assert (B * x <= B * x1) by (apply Rmult_le_compat_l; lra)|assert (B * x <= B * x0) by (apply Rmult_le_compat_neg_l; lra); assert (B * x1 <= B * x) by (apply Rmult_le_compat_neg_l; lra)]; lra. Qed.
Lemma between_spec lo hi h l : between lo hi h l = true -> IZR lo <= (smh h 1000 - smh l 1000) * 10 ^ 45 <= IZR hi.
Proof.
  unfold between. intros B. do 5 apply andb_prop in B as [B ?]. repeat match goal with H : (_ <=? _)%Z = true |- _ => apply Z.leb_le in H; apply IZR_le in H end.
  rewrite Rmult_minus_distr_r, !base_spec by auto. unfold gapZ in *.
  rewrite !plus_IZR, !minus_IZR, !mult_IZR, !minus_IZR in *.
  pose proof ln10_bounds as [L1 L2].
  set (P := IZR (baseZ h) - IZR (baseZ l)) in *. set (Q := IZR (decZ (nth 2 h (D 0 0))) - IZR (decZ (nth 2 l (D 0 0)))) in *.
  assert (R := linear_between P (Q * 3) (ln 10 * 10 ^ 9) (IZR lo) (IZR hi) 2302585092 2302585096).
  replace (IZR (baseZ h) + IZR (decZ (nth 2 h (D 0 0))) * 10 ^ 9 * (3 * ln 10) - (IZR (baseZ l) + IZR (decZ (nth 2 l (D 0 0))) * 10 ^ 9 * (3 * ln 10)))
    with (P + Q * 3 * (ln 10 * 10 ^ 9)) by (unfold P, Q; ring).
  apply R; [|lra|lra]. cbn [pow]. cbn [pow] in L1, L2. lra.
Qed.
Lemma small_exp x : Rabs x <= 1 / 100000 -> Rabs (exp x - 1) < 2 / 100000.
Proof.
  intros A. assert (B : - (1 / 100000) <= x <= 1 / 100000) by (unfold Rabs in A; destruct (Rcase_abs x); lra).
  pose proof (exp_ineq1_le x) as L. pose proof (exp_ineq1_le (- x)) as U. rewrite exp_Ropp in U. pose proof (exp_pos x) as P.
  assert (W : exp x * (1 - x) <= 1). { apply Rmult_le_compat_l with (r := exp x) in U; [|lra]. rewrite Rinv_r in U by lra. lra. }
  apply Rabs_def1; nra.
Qed.
Definition allBetween (lo hi : Z) (hs ls : list (list decimal)) (ns : list nat) : bool := forallb (fun n => between lo hi (nth n hs []) (nth n ls [])) ns.
Definition others : list nat := seq 0 26 ++ seq 27 4.
Lemma gaps_others : allBetween (-(10 ^ 40))%Z (10 ^ 40)%Z (mHigh red22) (mLow red22) others = true.
Proof. vm_compute. reflexivity. Qed.
Lemma within_gap h l : between (-(10 ^ 40))%Z (10 ^ 40)%Z h l = true -> Rabs (smh h 1000 - smh l 1000) <= 1 / 100000.
Proof.
  intros B. apply between_spec in B. change (IZR (-(10 ^ 40))) with (- 10000000000000000000000000000000000000000) in B. change (IZR (10 ^ 40)) with 10000000000000000000000000000000000000000 in B.
  cbn [pow] in B. apply Rabs_le. lra.
Qed.

(** crossing 1000 K changes the equilibrium constants' building blocks by less than two parts in 100 000, for every species but CH2CHO *)
Theorem C146_no_jump : forall n, (n < 31)%nat -> n <> 26%nat -> exists r, jumpsBy (fun T => eg22 red22 T n) 1000 r /\ Rabs (r - 1) < 2 / 100000.
Proof.
  intros n L N. eexists. split; [apply eg_jump|]. apply small_exp, within_gap.
  pose proof gaps_others as G. unfold allBetween in G. rewrite forallb_forall in G. apply G. unfold others. rewrite in_app_iff, !in_seq. lia.
Qed.
Lemma gap_26 : between (- (12 * 10 ^ 44))%Z (- (119 * 10 ^ 43))%Z (nth 26 (mHigh red22) []) (nth 26 (mLow red22) []) = true.
Proof. vm_compute. reflexivity. Qed.
Lemma exp_119 : exp (- (119 / 100)) < 1 / 3.
Proof.
  rewrite exp_Ropp. rewrite <- (Rinv_inv (1 / 3)). apply Rinv_lt_contravar; [apply Rmult_lt_0_compat; [lra|apply exp_pos]|].
  replace (/ (1 / 3)) with 3 by field. replace (119 / 100) with (119 / 800 + 119 / 800 + 119 / 800 + 119 / 800 + 119 / 800 + 119 / 800 + 119 / 800 + 119 / 800) by field. rewrite !exp_plus.
  pose proof (exp_ineq1_le (119 / 800)) as B. set (e := exp (119 / 800)) in *. assert (C : 919 / 800 <= e) by lra.
  assert (C2 : (919 / 800) * (919 / 800) <= e * e) by (apply Rmult_le_compat; lra).
  assert (C4 : (919 / 800) * (919 / 800) * ((919 / 800) * (919 / 800)) <= e * e * (e * e)) by (apply Rmult_le_compat; nra).
  assert (C8 : (919 / 800) * (919 / 800) * ((919 / 800) * (919 / 800)) * ((919 / 800) * (919 / 800) * ((919 / 800) * (919 / 800))) <= e * e * (e * e) * (e * e * (e * e))) by (apply Rmult_le_compat; nra).
  nra.
Qed.
(** but that of CH2CHO falls to less than a third *)
Theorem C146_no_jump_refuted : exists r, jumpsBy (fun T => eg22 red22 T 26) 1000 r /\ r < 1 / 3.
Proof.
  eexists. split; [apply eg_jump|]. apply Rle_lt_trans with (2 := exp_119).
  pose proof (between_spec _ _ _ _ gap_26) as [_ B].
  change (IZR (- (119 * 10 ^ 43))) with (- 1190000000000000000000000000000000000000000000) in B. cbn [pow] in B.
  assert (E : smh (nth 26 (mHigh red22) []) 1000 - smh (nth 26 (mLow red22) []) 1000 <= - (119 / 100)) by lra.
  destruct E as [E|E]; [left; now apply exp_increasing|right; now rewrite E].
Qed.

(** the same data with the sign of one coefficient reversed: that of T^3 below 1000 K for CH2CHO *)
Definition negate (d : decimal) : decimal := let 'D m e := d in D (- m) e.
Definition flipAt {A} (n : nat) (f : A -> A) (l : list A) : list A := firstn n l ++ match skipn n l with [] => [] | x :: t => f x :: t end.
Definition red22_corrected : mech22 :=
  mkM22 (mW red22) (mHigh red22) (flipAt 26 (flipAt 5 negate) (mLow red22)) (mReacs red22) (mZeroF red22) (mZeroB red22) (mRows red22) (mProg red22) (mBack red22).
Lemma gaps_corrected : allBetween (-(10 ^ 40))%Z (10 ^ 40)%Z (mHigh red22_corrected) (mLow red22_corrected) (seq 0 31) = true.
Proof. vm_compute. reflexivity. Qed.
Theorem C146_one_sign : forall n, (n < 31)%nat -> exists r, jumpsBy (fun T => eg22 red22_corrected T n) 1000 r /\ Rabs (r - 1) < 2 / 100000.
Proof.
  intros n L. eexists. split; [apply eg_jump|]. apply small_exp, within_gap.
  pose proof gaps_corrected as G. unfold allBetween in G. rewrite forallb_forall in G. apply G, in_seq. lia.
Qed.

Lemma jump_at f h : (forall T, 1000 < T -> f T = h T) -> continuity_pt h 1000 -> f 1000 <> 0 -> jumpsBy f 1000 (h 1000 / f 1000).
Proof.
  intros E C N eps P. assert (Pa : 0 < Rabs (f 1000)) by (now apply Rabs_pos_lt).
  destruct (cont_eps _ _ C (eps * Rabs (f 1000)) ltac:(now apply Rmult_lt_0_compat)) as (d & Pd & K). exists d. split; [auto|]. intros T [A B]. rewrite E by auto.
  assert (Q := K T ltac:(rewrite Rabs_right; lra)).
  replace (h T / f 1000 - h 1000 / f 1000) with ((h T - h 1000) * / f 1000) by (field; auto).
  rewrite Rabs_mult, Rabs_inv. apply Rmult_lt_reg_r with (Rabs (f 1000)); [auto|]. rewrite Rmult_assoc, Rinv_l by lra. lra.
Qed.
Lemma pref_cont T : 0 < T -> continuity_pt pref22 T.
Proof.
  intros P. unfold pref22. apply (continuity_pt_div (fct_cte 1013250) (fun T => 831451 / 10 ^ 5 * 10 ^ 7 * T)).
  - apply derivable_continuous_pt, derivable_pt_const.
  - apply (continuity_pt_mult (fct_cte (831451 / 10 ^ 5 * 10 ^ 7)) id); apply derivable_continuous_pt; [apply derivable_pt_const|apply derivable_pt_id].
  - cbn [pow]. lra.
Qed.
Lemma pref_pos T : 0 < T -> 0 < pref22 T.
Proof. intros P. unfold pref22. apply Rdiv_lt_0_compat; [lra|]. cbn [pow]. lra. Qed.
Definition noReaction : reac22 := mkR22 (KConst (D 0 0)) [] [] 0 NoMod [] [] None None [].
(** the equilibrium constant of H + CH2CO = CH2CHO (chem_C2H4_Air_Red22.cpp:797) falls by more than half as the temperature passes 1000 K, so its reverse rate constant more than doubles *)
Theorem C146_equilibrium_refuted : let r := nth 125 red22_reactions noReaction in
  rReac r = [1; 25]%nat /\ rProd r = [26]%nat /\
  exists x, jumpsBy (fun T => eqk22 r (eg22 red22 T) (pref22 T)) 1000 x /\ x < 1 / 2.
Proof.
  set (r := nth 125 red22_reactions noReaction). cbv zeta.
  assert (R1 : rReac r = [1; 25]%nat) by (vm_compute; reflexivity). assert (R2 : rProd r = [26]%nat) by (vm_compute; reflexivity). assert (R3 : rPref r = (-1)%Z) by (vm_compute; reflexivity).
  split; [auto|split; [auto|]].
  assert (F : forall T, eqk22 r (eg22 red22 T) (pref22 T) = eg22 red22 T 26 / eg22 red22 T 1 / eg22 red22 T 25 * / pref22 T).
  { intros T. unfold eqk22. rewrite R1, R2, R3. cbn [fold_left]. rewrite Rmult_1_l. f_equal. simpl. f_equal. ring. }
  pose proof (gaps_others) as G. unfold allBetween in G. rewrite forallb_forall in G.
  assert (G1 := within_gap _ _ (G 1%nat ltac:(unfold others; rewrite in_app_iff, !in_seq; lia))).
  assert (G25 := within_gap _ _ (G 25%nat ltac:(unfold others; rewrite in_app_iff, !in_seq; lia))). clear G.
  pose proof (between_spec _ _ _ _ gap_26) as [_ B]. change (IZR (- (119 * 10 ^ 43))) with (- 1190000000000000000000000000000000000000000000) in B.
  clear R1 R2 R3.
  revert F G1 G25 B.
  generalize (eqk22 r). clear r. generalize (eg_high red22) (eg_low red22). generalize (eg22 red22). intros eg EH EL eqk F G1 G25 B.
  set (h := fun n => smh (nth n (mHigh red22) [])). set (l := fun n => smh (nth n (mLow red22) [])).
  fold (h 1%nat) in G1. fold (l 1%nat) in G1. fold (h 25%nat) in G25. fold (l 25%nat) in G25. fold (h 26%nat) in B. fold (l 26%nat) in B.
  assert (EH' : forall T n, 1000 < T -> eg T n = exp (h n T)) by (intros; now apply EH). assert (EL' : forall n, eg 1000 n = exp (l n 1000)) by (intros; apply EL; lra). clear EH EL.
  assert (Ch : forall n, continuity_pt (fun T => exp (h n T)) 1000) by (intros n; apply expsmh_cont; lra).
  clearbody h l.
  pose proof (pref_pos 1000 ltac:(lra)) as Pp.
  assert (J := jump_at (fun T => eqk (eg T) (pref22 T)) (fun T => exp (h 26%nat T) / exp (h 1%nat T) / exp (h 25%nat T) * / pref22 T)).
  assert (J' := J ltac:(intros T HT; cbv beta; rewrite F, !EH' by auto; reflexivity)). clear J.
  assert (NZ : forall x, exp x <> 0) by (intros x; apply Rgt_not_eq, exp_pos).
  assert (CC : continuity_pt (fun T => exp (h 26%nat T) / exp (h 1%nat T) / exp (h 25%nat T) * / pref22 T) 1000).
  { apply (continuity_pt_mult (fun T => exp (h 26%nat T) / exp (h 1%nat T) / exp (h 25%nat T)) (fun T => / pref22 T)).
    - apply (continuity_pt_div (fun T => exp (h 26%nat T) / exp (h 1%nat T)) (fun T => exp (h 25%nat T))); auto.
      apply (continuity_pt_div (fun T => exp (h 26%nat T)) (fun T => exp (h 1%nat T))); auto.
    - apply (continuity_pt_inv pref22); [apply pref_cont; lra|lra]. }
  assert (J2 := J' CC). cbv beta in J2. rewrite F, !EL' in J2.
  eexists. split.
  - apply J2. repeat apply Rmult_integral_contrapositive_currified; try apply Rinv_neq_0_compat; auto; lra.
  - replace (exp (h 26%nat 1000) / exp (h 1%nat 1000) / exp (h 25%nat 1000) * / pref22 1000 / (exp (l 26%nat 1000) / exp (l 1%nat 1000) / exp (l 25%nat 1000) * / pref22 1000))
      with (exp ((h 26%nat 1000 - l 26%nat 1000) - (h 1%nat 1000 - l 1%nat 1000) - (h 25%nat 1000 - l 25%nat 1000))).
    2:{ unfold Rminus. rewrite !Ropp_plus_distr, !Ropp_involutive, !exp_plus, !exp_Ropp. field. repeat split; auto; lra. }
    apply Rlt_trans with (exp (- (119 / 100) + 1 / 10)).
    + apply exp_increasing. cbn [pow] in B. unfold Rabs in G1, G25. destruct (Rcase_abs (h 1%nat 1000 - l 1%nat 1000)), (Rcase_abs (h 25%nat 1000 - l 25%nat 1000)); lra.
    + rewrite exp_plus. pose proof exp_119. pose proof (exp_pos (- (119 / 100))). assert (exp (1 / 10) < 11 / 9).
      { pose proof (exp_ineq1_le (- (1 / 10))) as U. rewrite exp_Ropp in U. pose proof (exp_pos (1 / 10)) as P. apply Rmult_le_compat_l with (r := exp (1 / 10)) in U; [|lra]. rewrite Rinv_r in U by lra. lra. }
      pose proof (exp_pos (1 / 10)). nra.
Qed.
(** the hypotheses are met: the first species is one of those that do not jump, and its function is positive there *)
Example C146_nonvacuous : (0 < 31)%nat /\ 0%nat <> 26%nat /\ 0 < eg22 red22 1000 0 /\ (exists r, jumpsBy (fun T => eg22 red22 T 0) 1000 r /\ Rabs (r - 1) < 2 / 100000) /\
  nth 26 (mLow red22_corrected) [] <> nth 26 (mLow red22) [].
Proof.
  split; [lia|split; [discriminate|split; [apply exp_pos|split; [apply C146_no_jump; [lia|discriminate]|]]]].
  intros E. apply (f_equal (fun l => match nth 5 l (D 0 0) with D m _ => (m <? 0)%Z end)) in E. vm_compute in E. discriminate.
Qed.
Print Assumptions C146_smooth.
Print Assumptions C146_no_jump.
Print Assumptions C146_no_jump_refuted.
Print Assumptions C146_one_sign.
Print Assumptions C146_equilibrium_refuted.
