(** C149: the MUSCL reconstruction of both second-order upwind schemes. *)
From Coq Require Import Reals ZArith List Bool Lra Lia Psatz.
From Verif Require Import L_Vec M_Grid M_Metrics S_Metrics M_Flux M_FluxKernels S_FluxKernels S_Muscl.
Import ListNotations.
Open Scope R_scope.

Lemma limiter_bounds r : 0 <= limiter r <= 2 /\ (0 <= r -> limiter r <= 2 * r) /\ (r <= 0 -> limiter r = 0).
Proof. unfold limiter, theta, Rmax, Rmin. repeat destruct (Rle_dec _ _); repeat split; try lra; intros; lra. Qed.
Lemma ratio_bounds a b : 0 <= ratio a b <= 2.
Proof. unfold ratio, theta. destruct (Req_EM_T b 0); [destruct (Rlt_dec a 0); lra|]. apply limiter_bounds. Qed.
Lemma between_step a b t : 0 <= t <= 1 -> between a b (a + t * (b - a)).
Proof. intros T. unfold between, Rmin, Rmax. destruct (Rle_dec a b); nra. Qed.
(* the left value *)
Lemma left_between h : between (h (-1)%Z) (h 0%Z) (useL (limL h) h).
Proof.
  unfold useL, limL. pose proof (ratio_bounds (h (-1)%Z - h (-2)%Z) (h 0%Z - h (-1)%Z)) as B. set (p := ratio _ _) in *. clearbody p.
  replace (h (-1)%Z + 5 / 10 * p * (h 0%Z - h (-1)%Z)) with (h (-1)%Z + p / 2 * (h 0%Z - h (-1)%Z)) by field. apply between_step. lra.
Qed.
(* the correction of the right value is at most the step on the other side *)
Lemma right_step a d : exists t, 0 <= t <= 1 /\ 5 / 10 * ratio a d * d = t * a.
Proof.
  unfold ratio. destruct (Req_EM_T d 0) as [->|N]; [exists 0; split; [lra|destruct (Rlt_dec a 0); ring]|].
  destruct (limiter_bounds (a / d)) as ((P & Q) & Up & Dn).
  destruct (Rle_dec (a / d) 0) as [L|L]; [exists 0; rewrite (Dn L); split; [lra|ring]|].
  assert (A : a <> 0) by (intros ->; unfold Rdiv in L; rewrite Rmult_0_l in L; lra).
  exists (limiter (a / d) / 2 / (a / d)). specialize (Up ltac:(lra)). split.
  - split; [apply Rmult_le_pos; [lra|apply Rlt_le, Rinv_0_lt_compat; lra]|]. apply Rmult_le_reg_r with (a / d); [lra|]. unfold Rdiv at 1. rewrite Rmult_assoc, Rinv_l by lra. lra.
  - field. auto.
Qed.
Lemma right_between h : between (h (-1)%Z) (h 0%Z) (useR (limR h) h).
Proof.
  unfold useR, limR. destruct (right_step (h 0%Z - h (-1)%Z) (h 1%Z - h 0%Z)) as (t & T & ->).
  unfold between. rewrite Rmin_comm, Rmax_comm. replace (h 0%Z - t * (h 0%Z - h (-1)%Z)) with (h 0%Z + t * (h (-1)%Z - h 0%Z)) by ring. now apply between_step.
Qed.
Lemma rec_between (r : bool) h : between (h (-1)%Z) (h 0%Z) ((if r then useR else useL) ((if r then limR else limL) h) h).
Proof. destruct r; [apply right_between|apply left_between]. Qed.
Lemma between_pos a b x : 0 < a -> 0 < b -> between a b x -> 0 < x.
Proof. unfold between, Rmin. intros A B [H _]. destruct (Rle_dec a b); lra. Qed.
Lemma faceEnergy_is hy st r : f_rho (musclState hy st r) <> 0 ->
  faceEnergy (musclState hy st r) = (if r then useR else useL) ((if r then limR else limL) (fun m => energyOf (st m))) (fun m => energyOf (st m)).
Proof.
  intros N. unfold faceEnergy, energyOf. cbn [f_E f_rho f_u f_v f_w musclState] in *. revert N. set (rho := (if r then useR else useL) _ (fun m => c_rho (st m))).
  set (e := (if r then useR else useL) _ (fun m => c_re (st m) / c_rho (st m))). intros N. field. auto.
Qed.
(** density, velocity and internal energy at the face lie between those of the two cells beside it; so do, in MUSCL-HLLC, the mass fractions *)
Theorem C149_between : forall hy st r, (forall m, realCell (st m)) -> let s := musclState hy st r in
  between (c_rho (st (-1)%Z)) (c_rho (st 0%Z)) (f_rho s) /\ between (c_u (st (-1)%Z)) (c_u (st 0%Z)) (f_u s) /\ between (c_v (st (-1)%Z)) (c_v (st 0%Z)) (f_v s) /\
  between (c_w (st (-1)%Z)) (c_w (st 0%Z)) (f_w s) /\ between (energyOf (st (-1)%Z)) (energyOf (st 0%Z)) (faceEnergy s) /\
  (hy = true -> forall l, between (cq (st (-1)%Z) l) (cq (st 0%Z) l) (f_Y s l) /\ f_rY s l = f_rho s * f_Y s l).
Proof.
  intros hy st r R s. assert (B : between (c_rho (st (-1)%Z)) (c_rho (st 0%Z)) (f_rho s)) by apply (rec_between r (fun m => c_rho (st m))).
  split; [exact B|]. split; [apply (rec_between r (fun m => c_u (st m)))|]. split; [apply (rec_between r (fun m => c_v (st m)))|]. split; [apply (rec_between r (fun m => c_w (st m)))|]. split.
  - unfold s. rewrite faceEnergy_is; [apply (rec_between r (fun m => energyOf (st m)))|]. apply Rgt_not_eq. apply (between_pos _ _ _ (proj1 (R _)) (proj1 (R _)) B).
  - intros -> l. split; [apply (rec_between r (fun m => cq (st m) l))|reflexivity].
Qed.
(** so the reconstructed states have positive density and energy, and in MUSCL-HLLC mass fractions within [0,1] *)
Theorem C149_admissible : forall hy st r, (forall m, realCell (st m)) -> let s := musclState hy st r in
  0 < f_rho s /\ 0 < faceEnergy s /\ 0 < f_E s /\ (hy = true -> forall l, 0 <= cq (st (-1)%Z) l <= 1 -> 0 <= cq (st 0%Z) l <= 1 -> 0 <= f_Y s l <= 1).
Proof.
  intros hy st r R s. destruct (C149_between hy st r R) as (B1 & _ & _ & _ & B2 & B3). fold s in B1, B2, B3.
  assert (P : 0 < f_rho s) by (apply (between_pos _ _ _ (proj1 (R _)) (proj1 (R _)) B1)).
  assert (E : forall m, 0 < energyOf (st m)) by (intros m; destruct (R m); now apply Rdiv_lt_0_compat).
  assert (Q : 0 < faceEnergy s) by (apply (between_pos _ _ _ (E _) (E _) B2)). split; [exact P|]. split; [exact Q|]. split.
  - unfold faceEnergy in Q. assert (K : 0 <= (f_u s ^ 2 + f_v s ^ 2 + f_w s ^ 2) / 2) by (pose proof (pow2_ge_0 (f_u s)); pose proof (pow2_ge_0 (f_v s)); pose proof (pow2_ge_0 (f_w s)); lra).
    assert (Z : 0 < f_E s / f_rho s) by lra. replace (f_E s) with (f_E s / f_rho s * f_rho s) by (field; lra). now apply Rmult_lt_0_compat.
  - intros H l A B. destruct (B3 H l) as [[X Y] _]. unfold Rmin in X. unfold Rmax in Y. destruct (Rle_dec (cq (st (-1)%Z) l) (cq (st 0%Z) l)); lra.
Qed.
(* linear fields *)
Lemma ratio_one d : d <> 0 -> ratio d d = 1.
Proof. intros N. unfold ratio. destruct (Req_EM_T d 0); [contradiction|]. replace (d / d) with 1 by (field; auto). unfold limiter, theta, Rmax, Rmin. repeat destruct (Rle_dec _ _); lra. Qed.
Lemma lims_linear h a d : linearOver h a d -> limR h = ratio d d /\ limL h = ratio d d.
Proof. intros L. unfold limR, limL. rewrite !L by lia. split; f_equal; lra. Qed.
Lemma rec_linear (r : bool) h a d : linearOver h a d -> (if r then useR else useL) ((if r then limR else limL) h) h = a - d / 2.
Proof.
  intros L. destruct (lims_linear h a d L) as [E1 E2]. destruct (Req_dec d 0) as [->|N].
  - destruct r; unfold useR, useL; rewrite !L by lia; lra.
  - destruct r; [rewrite E1|rewrite E2]; unfold useR, useL; rewrite ratio_one by auto; rewrite !L by lia; lra.
Qed.
(** fields that vary linearly get their exact value at the face from both sides; pressure and sound speed do if the energy varies too *)
Theorem C149_linear : forall hy st r, let s := musclState hy st r in
  (forall a d, linearOver (fun m => c_rho (st m)) a d -> f_rho s = a - d / 2) /\ (forall a d, linearOver (fun m => c_u (st m)) a d -> f_u s = a - d / 2) /\
  (forall a d, linearOver (fun m => c_v (st m)) a d -> f_v s = a - d / 2) /\ (forall a d, linearOver (fun m => c_w (st m)) a d -> f_w s = a - d / 2) /\
  (forall a d, (forall m, realCell (st m)) -> linearOver (fun m => energyOf (st m)) a d -> faceEnergy s = a - d / 2) /\
  (forall a d l, linearOver (fun m => cq (st m) l) a d -> f_Y s l = a - d / 2) /\
  (forall a d, linearOver (fun m => energyOf (st m)) a d -> d <> 0 ->
     (forall b k, linearOver (fun m => c_p (st m)) b k -> f_p s = b - k / 2) /\ (forall b k, linearOver (fun m => c_c (st m)) b k -> f_c s = b - k / 2)).
Proof.
  intros hy st r s. repeat (split; [intros a d L; apply (rec_linear r _ a d L)|]). split; [|split].
  - intros a d R L. unfold s. rewrite faceEnergy_is; [apply (rec_linear r _ a d L)|]. apply Rgt_not_eq, (proj1 (C149_admissible hy st r R)).
  - intros a d l L. apply (rec_linear r (fun m => cq (st m) l) a d L).
  - intros a d L N. destruct (lims_linear _ a d L) as [E1 E2].
    assert (U : forall h b k, linearOver h b k -> (if r then useR else useL) ((if r then limR else limL) (fun m => energyOf (st m))) h = b - k / 2).
    { intros h b k Lh. destruct r; [rewrite E1|rewrite E2]; rewrite ratio_one by auto; unfold useR, useL; rewrite !Lh by lia; lra. }
    split; intros b k Lh; apply (U _ b k Lh).
Qed.
(** the sound speed of a perfect gas stays positive *)
Theorem C149_sound_speed : forall hy st r gam, 1 < gam -> (forall m, realCell (st m)) -> (forall m, perfect gam (st m)) -> 0 < f_c (musclState hy st r).
Proof.
  intros hy st r gam G R P. assert (E : forall m, 0 < energyOf (st m)) by (intros m; destruct (R m); now apply Rdiv_lt_0_compat).
  set (k := gam * (gam - 1)). assert (K : 0 < k) by (unfold k; nra).
  assert (C : forall m, c_c (st m) = sqrt (k * energyOf (st m))) by (intros m; apply (proj2 (P m))).
  assert (Cp : forall m, 0 < c_c (st m)) by (intros m; rewrite C; apply sqrt_lt_R0; apply Rmult_lt_0_compat; auto).
  assert (Sq : forall m, c_c (st m) * c_c (st m) = k * energyOf (st m)) by (intros m; rewrite C; apply sqrt_sqrt; pose proof (E m); nra).
  change (0 < (if r then useR else useL) ((if r then limR else limL) (fun m => energyOf (st m))) (fun m => c_c (st m))). destruct r.
  - unfold useR, limR. destruct (right_step (energyOf (st 0%Z) - energyOf (st (-1)%Z)) (energyOf (st 1%Z) - energyOf (st 0%Z))) as (t & T & S).
    pose proof (ratio_bounds (energyOf (st 0%Z) - energyOf (st (-1)%Z)) (energyOf (st 1%Z) - energyOf (st 0%Z))) as B. set (p := ratio _ _) in *. clearbody p.
    pose proof (Cp 0%Z) as P0. pose proof (Cp 1%Z) as P1. pose proof (Sq 0%Z) as S0. pose proof (Sq 1%Z) as S1. pose proof (E (-1)%Z) as Em. pose proof (E 0%Z) as E0.
    set (x := c_c (st 0%Z)) in *. set (y := c_c (st 1%Z)) in *. set (e0 := energyOf (st 0%Z)) in *. set (e1 := energyOf (st 1%Z)) in *. set (em := energyOf (st (-1)%Z)) in *. clearbody x y e0 e1 em.
    assert (D : 5 / 10 * p * (y - x) * (y + x) = t * k * (e0 - em)).
    { transitivity (5 / 10 * p * (y * y - x * x)); [ring|]. rewrite S0, S1. transitivity (k * (5 / 10 * p * (e1 - e0))); [ring|]. rewrite S. ring. }
    assert (W : 0 < (x - 5 / 10 * p * (y - x)) * (y + x)); [|nra].
    replace ((x - 5 / 10 * p * (y - x)) * (y + x)) with (x * y + x * x - 5 / 10 * p * (y - x) * (y + x)) by ring. rewrite D, S0.
    assert (0 < x * y) by (apply Rmult_lt_0_compat; auto). assert (t * k * (e0 - em) <= k * e0); [|lra].
    assert (t * (e0 - em) <= e0) by nra. replace (t * k * (e0 - em)) with (k * (t * (e0 - em))) by ring. apply Rmult_le_compat_l; lra.
  - unfold useL, limL. pose proof (ratio_bounds (energyOf (st (-1)%Z) - energyOf (st (-2)%Z)) (energyOf (st 0%Z) - energyOf (st (-1)%Z))) as B. set (p := ratio _ _) in *. clearbody p.
    pose proof (Cp 0%Z). pose proof (Cp (-1)%Z). replace (c_c (st (-1)%Z) + 5 / 10 * p * (c_c (st 0%Z) - c_c (st (-1)%Z))) with ((1 - p / 2) * c_c (st (-1)%Z) + p / 2 * c_c (st 0%Z)) by field.
    destruct (Req_dec p 0) as [->|N]; [lra|]. assert (0 < p / 2 * c_c (st 0%Z)) by (apply Rmult_lt_0_compat; lra). assert (0 <= (1 - p / 2) * c_c (st (-1)%Z)) by (apply Rmult_le_pos; lra). lra.
Qed.
(** ** where it fails *)
Lemma still_ok rho e y : 0 < rho -> 0 < e -> coherent (still rho e y) /\ realCell (still rho e y) /\ perfect (7/5) (still rho e y).
Proof.
  intros R E. assert (Ee : energyOf (still rho e y) = e) by (unfold energyOf, c_re, c_rho, still; cbn [cQ ch Z.eqb]; cbn; field; lra).
  unfold coherent, realCell, perfect. rewrite Ee. unfold still, c_rho, c_u, c_v, c_w, c_E, c_re, c_p, c_c, vel, dot3. cbn [cQ cq ch Z.eqb Z.leb Z.compare Pos.eqb Pos.compare Pos.compare_cont].
  split; [|split].
  - split; [lra|]. do 4 (split; [cbn; unfold vx, vy, vz; cbn; ring|]). intros l L. replace (l =? 0)%Z with false by (symmetry; apply Z.eqb_neq; lia). replace (l =? 4)%Z with false by (symmetry; apply Z.eqb_neq; lia).
    replace (5 <=? l)%Z with true by (symmetry; apply Z.leb_le; lia). reflexivity.
  - split; [auto|]. apply Rmult_lt_0_compat; auto.
  - split; [field|]. f_equal. field.
Qed.

Lemma ratio_steep a d : 0 < d -> 3 * d <= a -> ratio a d = 2.
Proof.
  intros D A. unfold ratio. destruct (Req_EM_T d 0); [lra|]. assert (3 <= a / d). { apply Rmult_le_reg_r with d; [auto|]. unfold Rdiv. rewrite Rmult_assoc, Rinv_l by lra. lra. }
  unfold limiter, theta, Rmax, Rmin. repeat destruct (Rle_dec _ _); lra.
Qed.
Lemma energy_still rho e y : 0 < rho -> energyOf (still rho e y) = e.
Proof. intros R. unfold energyOf, c_re, c_rho, still. cbn. field. lra. Qed.
(** pressure is limited by what limits the energy: from positive pressures everywhere both schemes make a negative one *)
Theorem C149_pressure_refuted : exists st, (forall m, coherent (st m) /\ realCell (st m) /\ perfect (7/5) (st m) /\ 0 < c_p (st m)) /\ forall hy, f_p (musclState hy st true) < 0.
Proof.
  exists (four (still 1 1 0) (still 1 1 0) (still 1 4 0) (still 3 5 0)). split.
  - intros m. unfold four. repeat destruct (_ =? _)%Z; (split; [apply still_ok; lra|split; [apply still_ok; lra|split; [apply still_ok; lra|cbn; lra]]]).
  - intros hy. change (useR (limR (fun m => energyOf (four (still 1 1 0) (still 1 1 0) (still 1 4 0) (still 3 5 0) m))) (fun m => c_p (four (still 1 1 0) (still 1 1 0) (still 1 4 0) (still 3 5 0) m)) < 0).
    unfold limR, useR. change (four (still 1 1 0) (still 1 1 0) (still 1 4 0) (still 3 5 0) 0%Z) with (still 1 4 0). change (four (still 1 1 0) (still 1 1 0) (still 1 4 0) (still 3 5 0) (-1)%Z) with (still 1 1 0).
    change (four (still 1 1 0) (still 1 1 0) (still 1 4 0) (still 3 5 0) 1%Z) with (still 3 5 0). rewrite !energy_still by lra. rewrite ratio_steep by lra. unfold c_p, still. cbn. lra.
Qed.
(** in gas of one temperature (energy the same in all four cells) the pressure of the left state is that of the right cell, and a pressure that varies linearly comes out exchanged: the left state
    gets the right cell's and the right state the left cell's *)
Theorem C149_isothermal_refuted : forall hy st e, (forall m, (-2 <= m <= 1)%Z -> energyOf (st m) = e) ->
  f_p (musclState hy st false) = c_p (st 0%Z) /\ f_p (musclState hy st true) = 2 * c_p (st 0%Z) - c_p (st 1%Z) /\
  forall b k, linearOver (fun m => c_p (st m)) b k -> f_p (musclState hy st true) = c_p (st (-1)%Z).
Proof.
  intros hy st e E.
  assert (L : limL (fun m => energyOf (st m)) = 2 /\ limR (fun m => energyOf (st m)) = 2).
  { unfold limL, limR, ratio, theta. rewrite !E by lia. destruct (Req_EM_T (e - e) 0); [|lra]. destruct (Rlt_dec (e - e) 0); [lra|auto]. }
  destruct L as [L1 L2].
  assert (P1 : f_p (musclState hy st false) = c_p (st 0%Z)).
  { change (useL (limL (fun m => energyOf (st m))) (fun m => c_p (st m)) = c_p (st 0%Z)). rewrite L1. unfold useL. lra. }
  assert (P2 : f_p (musclState hy st true) = 2 * c_p (st 0%Z) - c_p (st 1%Z)).
  { change (useR (limR (fun m => energyOf (st m))) (fun m => c_p (st m)) = 2 * c_p (st 0%Z) - c_p (st 1%Z)). rewrite L2. unfold useR. lra. }
  split; [exact P1|]. split; [exact P2|]. intros b k H. rewrite P2. rewrite (H 0%Z), (H 1%Z), (H (-1)%Z) by lia. lra.
Qed.
(** MUSCL-Rusanov limits the partial densities with the limiter of the density: it makes negative ones *)
Theorem C149_species_refuted : exists st, (forall m, coherent (st m) /\ realCell (st m) /\ perfect (7/5) (st m) /\ forall l, (5 <= l)%Z -> 0 <= cq (st m) l <= 1) /\
  f_rY (musclState false st true) 5%Z < 0.
Proof.
  exists (four (still 1 1 (1/10)) (still 1 1 (1/10)) (still 4 1 (1/10)) (still 5 1 (9/10))). split.
  - intros m. unfold four. repeat destruct (_ =? _)%Z; (split; [apply still_ok; lra|split; [apply still_ok; lra|split; [apply still_ok; lra|intros l L; unfold still; cbn [cq]; replace (l =? 0)%Z with false by (symmetry; apply Z.eqb_neq; lia); replace (5 <=? l)%Z with true by (symmetry; apply Z.leb_le; lia); lra]]]).
  - set (st := four _ _ _ _). change (useR (limR (fun m => c_rho (st m))) (fun m => cQ (st m) 5%Z) < 0).
    unfold limR, useR. change (st 0%Z) with (still 4 1 (1/10)). change (st (-1)%Z) with (still 1 1 (1/10)). change (st 1%Z) with (still 5 1 (9/10)).
    unfold c_rho, still. cbn [cQ Z.eqb Pos.eqb Z.leb Z.compare Pos.compare Pos.compare_cont]. rewrite ratio_steep by lra. lra.
Qed.
(** a pressure wave in perfect gas meets the hypotheses; its reconstruction is not the cell value *)
Example C149_nonvacuous : let st := fun m => still (10 + IZR (Z.max (-2) (Z.min 1 m))) (20 + IZR (Z.max (-2) (Z.min 1 m))) (1/2) in
  (forall m, realCell (st m) /\ coherent (st m) /\ perfect (7/5) (st m)) /\ linearOver (fun m => c_rho (st m)) 10 1 /\ linearOver (fun m => energyOf (st m)) 20 1 /\
  f_rho (musclState true st true) = 19/2 /\ f_rho (musclState true st true) <> c_rho (st 0%Z).
Proof.
  cbv zeta. set (st := fun m => still _ _ _).
  assert (B : forall m, -2 <= IZR (Z.max (-2) (Z.min 1 m)) <= 1) by (intros m; split; apply IZR_le; lia).
  assert (L1 : linearOver (fun m => c_rho (st m)) 10 1). { intros m M. unfold st, c_rho, still. cbn [cQ Z.eqb]. replace (Z.max (-2) (Z.min 1 m)) with m by lia. lra. }
  assert (L2 : linearOver (fun m => energyOf (st m)) 20 1). { intros m M. unfold st. rewrite energy_still by (pose proof (B m); lra). replace (Z.max (-2) (Z.min 1 m)) with m by lia. lra. }
  split; [|split; [exact L1|split; [exact L2|]]].
  - intros m. pose proof (B m). unfold st. split; [|split]; apply still_ok; lra.
  - assert (V : f_rho (musclState true st true) = 19/2) by (rewrite (proj1 (C149_linear true st true) 10 1 L1); lra). split; [exact V|]. rewrite V. unfold st, c_rho, still. cbn. lra.
Qed.
Print Assumptions C149_sound_speed.
