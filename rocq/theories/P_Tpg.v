(** Properties C40 and C88: the thermally perfect gas. *)
From Coq Require Import Reals ZArith List Bool Lia Lra FunctionalExtensionality.
From Verif Require Import M_Topology M_Halo M_Grid M_Metrics S_Metrics S_Sum M_Flux M_FluxKernels S_FluxKernels M_Thermo S_Thermo L_Grid1 L_Sum L_Vec L_Thermo P_Thermo.
Import ListNotations.
Open Scope R_scope.

Lemma nasaM_range th n T k : NASA7 th n (nasaM th n T + k)%Z = nasaRange th n T k.
Proof. unfold nasaM, nasaRange. destruct Rle_dec; reflexivity. Qed.
Lemma nasaCp_spec th n T : nasaCp th n T = speciesCp th n T.
Proof. unfold nasaCp, speciesCp. cbv zeta. rewrite !nasaM_range. unfold Rdiv. ring. Qed.
Lemma nasaH_spec th n T : T <> 0 -> nasaH th n T = speciesH th n T.
Proof.
  intros H. unfold nasaH, speciesH. cbv zeta. rewrite !nasaM_range.
  set (a := nasaRange th n T). set (m := Ru th / MW th n).
  replace (m * (a 5%Z + a 0%Z * T + a 1%Z / 2 * T ^ 2 + a 2%Z / 3 * T ^ 3 + a 3%Z / 4 * T ^ 4 + a 4%Z / 5 * T ^ 5)) with
    ((a 0%Z + a 1%Z * (T / 2) + a 2%Z * (T ^ 2 / 3) + a 3%Z * (T ^ 3 / 4) + a 4%Z * (T ^ 4 / 5) + a 5%Z * (1 / T)) * T * m) by (field; auto).
  unfold m, Rdiv. ring.
Qed.
Lemma tpgCp_spec th Y y T : (forall n, (0 <= n < ns th)%Z -> Y n = withLast (ns th) y n) -> tpgCp th Y T = mixtureCp th y T.
Proof. intros E. unfold tpgCp, mixtureCp. rewrite accum_sum. apply sumZ_ext. intros. rewrite nasaCp_spec, E by auto. ring. Qed.
Lemma tpgH_spec th Y y T : T <> 0 -> (forall n, (0 <= n < ns th)%Z -> Y n = withLast (ns th) y n) -> tpgH th Y T = mixtureH th y T.
Proof. intros HT E. unfold tpgH, mixtureH. rewrite accum_sum. apply sumZ_ext. intros. rewrite nasaH_spec, E by auto. ring. Qed.

(** * the derivative *)
Lemma poly_deriv (m b0 b1 b2 b3 b4 b5 : R) (T : R) :
  derivable_pt_lim (fun T => m * (b5 + b0 * T + b1 / 2 * T ^ 2 + b2 / 3 * T ^ 3 + b3 / 4 * T ^ 4 + b4 / 5 * T ^ 5)) T
    (m * (b0 + b1 * T + b2 * T ^ 2 + b3 * T ^ 3 + b4 * T ^ 4)).
Proof.
  assert (PW: forall k c, derivable_pt_lim (fun T => c * T ^ k) T (c * (INR k * T ^ pred k))).
  { intros k c. apply (derivable_pt_lim_scal (fun x => x ^ k) c T). apply derivable_pt_lim_pow. }
  set (f := fun T => m * (b5 + b0 * T + b1 / 2 * T ^ 2 + b2 / 3 * T ^ 3 + b3 / 4 * T ^ 4 + b4 / 5 * T ^ 5)).
  replace f with (mult_real_fct m (plus_fct (plus_fct (plus_fct (plus_fct (plus_fct (fct_cte b5) (fun T => b0 * T ^ 1)) (fun T => b1 / 2 * T ^ 2)) (fun T => b2 / 3 * T ^ 3)) (fun T => b3 / 4 * T ^ 4)) (fun T => b4 / 5 * T ^ 5))).
  2:{ apply functional_extensionality. intros x. unfold f, mult_real_fct, plus_fct, fct_cte. rewrite pow_1. reflexivity. }
  replace (m * (b0 + b1 * T + b2 * T ^ 2 + b3 * T ^ 3 + b4 * T ^ 4)) with
    (m * (0 + b0 * (INR 1 * T ^ pred 1) + b1 / 2 * (INR 2 * T ^ pred 2) + b2 / 3 * (INR 3 * T ^ pred 3) + b3 / 4 * (INR 4 * T ^ pred 4) + b4 / 5 * (INR 5 * T ^ pred 5))).
  2:{ cbn [pred INR]. simpl. field. }
  apply derivable_pt_lim_scal. repeat apply derivable_pt_lim_plus; try apply PW. apply derivable_pt_lim_const.
Qed.
Lemma speciesH_deriv th n T : T <> NASA7 th n 0%Z -> derivable_pt_lim (speciesH th n) T (speciesCp th n T).
Proof.
  intros HT. set (B := NASA7 th n 0%Z) in *. unfold speciesCp. cbv zeta. set (a := nasaRange th n T).
  set (d := Rabs (T - B)). assert (Hd: 0 < d) by (apply Rabs_pos_lt; lra).
  apply (derivable_pt_lim_locally_ext (fun x => Ru th / MW th n * (a 5%Z + a 0%Z * x + a 1%Z / 2 * x ^ 2 + a 2%Z / 3 * x ^ 3 + a 3%Z / 4 * x ^ 4 + a 4%Z / 5 * x ^ 5)) _ T (T - d) (T + d)).
  - lra.
  - intros z Hz. unfold speciesH. cbv zeta. assert (E: nasaRange th n z = a); [|now rewrite E].
    unfold a, nasaRange. apply functional_extensionality. intros k. fold B. unfold d in Hz.
    destruct (Rle_dec z B), (Rle_dec T B); auto; exfalso; destruct (Rle_dec T B) in Hz; try contradiction.
    + rewrite Rabs_pos_eq in Hz by lra. lra.
    + rewrite Rabs_left1 in Hz by lra. lra.
  - apply poly_deriv.
Qed.
Lemma sum_deriv (l : list Z) (f : Z -> R -> R) (g : Z -> R) T : (forall n, In n l -> derivable_pt_lim (f n) T (g n)) ->
  derivable_pt_lim (fun x => fold_right Rplus 0 (map (fun n => f n x) l)) T (fold_right Rplus 0 (map g l)).
Proof.
  induction l as [|a l IH]; intros H; cbn [map fold_right].
  - apply derivable_pt_lim_const.
  - apply (derivable_pt_lim_plus (f a) (fun x => fold_right Rplus 0 (map (fun n => f n x) l))); [apply H; now left|]. apply IH. intros; apply H; now right.
Qed.
Lemma energy_deriv th y T : offBreak th T -> derivable_pt_lim (internalEnergy th y) T (mixtureCp th y T - gasConstant th y).
Proof.
  intros HB. unfold internalEnergy.
  apply (derivable_pt_lim_minus (mixtureH th y) (fun T => gasConstant th y * T)).
  - unfold mixtureH, mixtureCp, sumZ. apply (sum_deriv _ (fun n x => withLast (ns th) y n * speciesH th n x) (fun n => withLast (ns th) y n * speciesCp th n T)).
    intros n Hn. apply zrange_in in Hn. apply (derivable_pt_lim_scal (speciesH th n)). apply speciesH_deriv. now apply HB.
  - pose proof (derivable_pt_lim_scal (fun x => x) (gasConstant th y) T 1 (derivable_pt_lim_id T)) as D. rewrite Rmult_1_r in D. exact D.
Qed.

(** * the loop *)
Lemma newton_last step : forall fuel T Tl er R1, newton fuel step T Tl (Some er) = Some R1 ->
  (R1 = (T, Tl, er) /\ (fuel = O \/ Rabs er <= tol)) \/
  (let '(T', Tl', er') := R1 in step Tl' = Some (er', T')).
Proof.
  induction fuel as [|k IH]; intros T Tl er R1 E; cbn [newton] in E.
  - injection E as <-. left. auto.
  - destruct (Rlt_dec tol (Rabs er)) as [H|H]; [|injection E as <-; left; split; auto; right; lra].
    destruct (step T) as [[er' T']|] eqn:S; [|discriminate]. destruct (IH _ _ _ _ E) as [(-> & _)|G]; right; auto.
Qed.
Lemma tol_small : tol < 10 ^ 100.
Proof. unfold tol. apply Rlt_le_trans with 1; [|apply pow_R1_Rle; lra]. apply Rmult_lt_reg_l with 100000000; [lra|]. rewrite Rinv_r; lra. Qed.
Lemma newtonRun_last step T0 T Tl er : newtonRun step T0 = Some (T, Tl, er) -> step Tl = Some (er, T).
Proof.
  unfold newtonRun, maxitr. cbv zeta. intros E. destruct (newton_last _ _ _ _ _ _ E) as [([= -> -> ->] & [G|G])|G]; [discriminate| |exact G].
  exfalso. rewrite Rabs_pos_eq in G by (apply pow_le; lra). pose proof tol_small. lra.
Qed.
(** starting from a temperature with zero residual the loop stops there *)
Lemma newtonRun_exact step T : 1 <= T -> (exists T1, step T = Some (0, T1) /\ T1 = T) -> newtonRun step T = Some (T, T, 0).
Proof.
  intros H (T1 & S & ->). unfold newtonRun, firstGuess. cbv zeta. destruct (Rlt_dec T 1); [lra|].
  unfold maxitr. cbn [newton]. destruct Rlt_dec as [G|G].
  - rewrite S. destruct Rlt_dec as [K|K]; [|reflexivity]. rewrite Rabs_R0 in K. exfalso. unfold tol in K. assert (0 < / 100000000) by (apply Rinv_0_lt_compat; lra). lra.
  - exfalso. apply G. rewrite Rabs_pos_eq by (apply pow_le; lra). apply tol_small.
Qed.
Lemma held_eq c : c_rho c <> 0 -> (cQ c 4%Z - halfSq (cQ c 1%Z) (cQ c 2%Z) (cQ c 3%Z) / cQ c 0%Z) / cQ c 0%Z = heldEnergy c.
Proof. intros H. unfold heldEnergy, c_E, c_rho, halfSq in *. field. auto. Qed.

Lemma newtonRun_stops : forall step T0 T Tl er, newtonRun step T0 = Some (T, Tl, er) -> Rabs er <= / 10 ^ 8 \/
  exists ts : list R, length ts = 100%nat /\ (forall i t, nth_error ts i = Some t -> exists er t', step t = Some (er, t') /\ ((i < 99)%nat -> nth_error ts (S i) = Some t' /\ / 10 ^ 8 < Rabs er)).
Proof.
  intros step T0 T Tl er. unfold newtonRun, maxitr. cbv zeta.
  assert (ET: tol = / 10 ^ 8) by (unfold tol; f_equal; ring). rewrite <- ET.
  assert (G: forall fuel Ta Tb e0, newton fuel step Ta Tb (Some e0) = Some (T, Tl, er) -> Rabs er <= tol \/
     exists ts, length ts = fuel /\ (fuel = O \/ nth_error ts 0 = Some Ta) /\ (forall i t, nth_error ts i = Some t -> exists er t', step t = Some (er, t') /\ ((S i < fuel)%nat -> nth_error ts (S i) = Some t' /\ tol < Rabs er))).
  { induction fuel as [|k IH]; intros Ta Tb e0 E; cbn [newton] in E.
    - right. exists []. split; [auto|]. split; [auto|]. intros [|i] t H; discriminate.
    - destruct (Rlt_dec tol (Rabs e0)) as [H|H]; [|injection E as <- <- <-; left; lra].
      destruct (step Ta) as [[e1 T1]|] eqn:S; [|discriminate].
      destruct (IH _ _ _ E) as [L|(ts & L & Z0 & P)]; [now left|]. 
      destruct k as [|k].
      + right. exists [Ta]. split; [auto|]. split; [right; auto|]. intros [|i] t Ht; [|destruct i; discriminate]. injection Ht as <-. exists e1, T1. split; [auto|lia].
      + destruct Z0 as [Z0|Z0]; [discriminate|]. destruct (Rlt_dec tol (Rabs e1)) as [K|K].
        * right. exists (Ta :: ts). split; [cbn; lia|]. split; [right; auto|]. intros [|i] t Ht; cbn [nth_error] in *.
          { injection Ht as <-. exists e1, T1. split; [auto|]. intros _. split; auto. }
          { destruct (P i t Ht) as (er' & t' & A & B). exists er', t'. split; [auto|]. intros. apply B. lia. }
        * left. cbn [newton] in E. destruct (Rlt_dec tol (Rabs e1)); [contradiction|]. injection E as <- <- <-. lra. }
  intros E. destruct (G _ _ _ _ E) as [L|(ts & L & _ & P)]; [now left|right]. exists ts. split; [auto|].
  intros i t Ht. destruct (P i t Ht) as (er' & t' & A & B). exists er', t'. split; [auto|]. intros. apply B. lia.
Qed.
(** C40.  What the conserved branch returns: the stored temperature is one exact Newton step from a temperature at which
    the residual was evaluated; when that residual met the tolerance ... *)
Theorem C40_newton_step : forall th c c', 0 < c_rho c -> tpgCons th c = Some c' ->
  let y := fracs c' in let T := cq c' 4%Z in let e := heldEnergy c in
  exists Tl, (Tl <> 0 -> T = Tl - (internalEnergy th y Tl - e) / (mixtureCp th y Tl - gasConstant th y)) /\
     c_p c' = c_rho c' * gasConstant th y * T /\ c_rho c' = c_rho c /\ c_re c' = c_rho c * e /\
     (Tl <> 0 -> ch c' 2%Z = c_rho c * mixtureH th y Tl) /\ ch c' 1%Z = mixtureCp th y Tl /\
     (Tl <> 0 -> Rabs (internalEnergy th y Tl - e) <= / 10 ^ 8 \/
        exists ts : list R, length ts = 100%nat /\ forall i t, nth_error ts i = Some t -> (i < 99)%nat -> t <> 0 ->
          nth_error ts (S i) = Some (t - (internalEnergy th y t - e) / (mixtureCp th y t - gasConstant th y)) /\
          / 10 ^ 8 < Rabs (internalEnergy th y t - e)).
Proof.
  intros th c c' Hr E. unfold tpgCons in E. cbv zeta in E. rewrite !consQ_low in E by lia.
  destruct (consY_valid (ns th) (cQ c) Hr) as (V & W). set (Y := consY (ns th) (cQ c)) in *.
  rewrite (held_eq c) in E by lra. destruct newtonRun as [[[T Tl] er]|] eqn:N; [|discriminate]. injection E as <-.
  pose proof (newtonRun_stops _ _ _ _ _ N) as ST.
  apply newtonRun_last in N. unfold tpgStep in N. cbv zeta in N. injection N as Ne NT.
  cbn [cq cQ ch]. unfold storeq at 1. cbn [Z.eqb Pos.eqb]. set (c' := mkCell _ _ _).
  assert (Ef: forall n, (0 <= n < ns th - 1)%Z -> fracs c' n = Y n) by (intros; unfold fracs, c'; cbn [cq]; now rewrite storeq_species).
  assert (W': forall n, (0 <= n < ns th)%Z -> Y n = withLast (ns th) (fracs c') n) by (intros n Hn; rewrite W by auto; apply withLast_ext; auto; intros; now rewrite Ef).
  assert (ER: mixR th Y = gasConstant th (fracs c')) by (now apply mixR_gas).
  assert (NX: forall t, t <> 0 -> tpgStep th Y (heldEnergy c) t = Some (heldEnergy c - internalEnergy th (fracs c') t,
     t - (internalEnergy th (fracs c') t - heldEnergy c) / (mixtureCp th (fracs c') t - gasConstant th (fracs c')))).
  { intros t H0. unfold tpgStep. cbv zeta. rewrite (tpgH_spec th Y (fracs c')), (tpgCp_spec th Y (fracs c')), ER by auto.
    unfold internalEnergy. set (h := mixtureH th (fracs c') t). set (cp := mixtureCp th (fracs c') t). set (R := gasConstant th (fracs c')).
    replace (- cp + R) with (- (cp - R)) by ring. unfold Rdiv. rewrite Rinv_opp. f_equal. f_equal. ring. }
  exists Tl. split; [|split; [|split; [|split; [|split; [|split]]]]].
  7:{ intros H0. destruct ST as [ST|(ts & L & P)].
      - left. rewrite (tpgH_spec th Y (fracs c')), ER in Ne by auto. rewrite Rabs_minus_sym. unfold internalEnergy. now rewrite Ne.
      - right. exists ts. split; [auto|]. intros i t Ht Hi Ht0. destruct (P i t Ht) as (er' & t' & A & B). rewrite NX in A by auto. injection A as A1 A2.
        destruct (B Hi) as (B1 & B2). rewrite A2. split; [auto|]. rewrite Rabs_minus_sym. now rewrite A1. }
  - intros H0. rewrite (tpgH_spec th Y (fracs c')), (tpgCp_spec th Y (fracs c')), ER in NT by auto. rewrite <- NT.
    unfold internalEnergy. set (h := mixtureH th (fracs c') Tl). set (cp := mixtureCp th (fracs c') Tl). set (R := gasConstant th (fracs c')).
    replace (- cp + R) with (- (cp - R)) by ring. unfold Rdiv. rewrite Rinv_opp. ring.
  - unfold c_p, c_rho. unfold c' at 1 2; cbn [cq cQ]. unfold storeq; cbn [Z.eqb Pos.eqb]. rewrite consQ_low by lia. now rewrite ER.
  - unfold c_rho, c'; cbn [cQ]. now rewrite consQ_low by lia.
  - unfold c_re, c'; cbn [ch]. unfold storeqh; cbn [Z.eqb Pos.eqb]. reflexivity.
  - intros H0. unfold c'; cbn [ch]. unfold storeqh; cbn [Z.eqb Pos.eqb]. fold (c_rho c). now rewrite (tpgH_spec th Y (fracs c')).
  - unfold c'; cbn [ch]. unfold storeqh; cbn [Z.eqb Pos.eqb]. now apply tpgCp_spec.
Qed.
(** the derivative used is the exact derivative of the internal energy *)
Theorem C40_exact_derivative : forall th y T, offBreak th T -> derivable_pt_lim (internalEnergy th y) T (mixtureCp th y T - gasConstant th y).
Proof. intros. now apply energy_deriv. Qed.
(** ... the stored temperature reproduces the energy held by the cell within the tolerance as well, if the heat capacity
    at constant volume is positive and varies by less than a factor of two over the last step. *)
Theorem C40_temperature_reproduces_energy : forall th y e Tl T,
  T = Tl - (internalEnergy th y Tl - e) / (mixtureCp th y Tl - gasConstant th y) ->
  Rabs (internalEnergy th y Tl - e) <= / 10 ^ 8 ->
  (forall x, Rmin T Tl <= x <= Rmax T Tl -> offBreak th x /\
     0 < mixtureCp th y x - gasConstant th y <= 2 * (mixtureCp th y Tl - gasConstant th y)) ->
  Rabs (internalEnergy th y T - e) <= / 10 ^ 8.
Proof.
  intros th y e Tl T HT Hr HX. set (f := internalEnergy th y) in *. set (f' := fun x => mixtureCp th y x - gasConstant th y) in *.
  assert (Hcv: 0 < f' Tl) by (apply HX; split; [apply Rmin_r|apply Rmax_r]).
  fold (f' Tl) in HT. destruct (Req_dec T Tl) as [E|E]; [rewrite E; auto|].
  assert (MV: exists x, Rmin T Tl <= x <= Rmax T Tl /\ f T - f Tl = f' x * (T - Tl)).
  { destruct (Rlt_or_le T Tl) as [L|L].
    - rewrite Rmin_left, Rmax_right in * by lra. destruct (MVT_cor2 f f' T Tl L) as (x & Hx & Hi).
      + intros z Hz. apply energy_deriv. now apply HX.
      + exists x. split; [lra|]. lra.
    - assert (L2: Tl < T) by lra. rewrite Rmin_right, Rmax_left in * by lra. destruct (MVT_cor2 f f' Tl T L2) as (x & Hx & Hi).
      + intros z Hz. apply energy_deriv. now apply HX.
      + exists x. split; [lra|]. lra. }
  destruct MV as (x & Hx & Eq). destruct (HX x Hx) as (_ & B). fold (f' x) (f' Tl) in B.
  replace (f T - e) with ((f Tl - e) * (1 - f' x / f' Tl)).
  2:{ replace (f T) with (f Tl + f' x * (T - Tl)) by lra. rewrite HT. field. lra. }
  rewrite Rabs_mult. assert (Rabs (1 - f' x / f' Tl) <= 1).
  { assert (0 < f' x / f' Tl) by (apply Rdiv_lt_0_compat; lra). assert (f' x / f' Tl <= 2).
    { apply Rmult_le_reg_r with (f' Tl); [lra|]. unfold Rdiv. rewrite Rmult_assoc, Rinv_l by lra. lra. } apply Rabs_le. lra. }
  pose proof (Rabs_pos (f Tl - e)). nra.
Qed.
Print Assumptions C40_temperature_reproduces_energy.

(** C88.  Primitive -> conserved -> primitive is the identity also for the thermally perfect gas (temperature from 1 K). *)
Theorem C88_tpg_round_trip : forall th c, goodGas th -> validFracs (ns th) (fracs c) -> 0 < c_p c -> 1 <= cq c 4%Z ->
  exists c'', tpgCons th (tpgPrims th c) = Some c'' /\
  sameq (ns th) c'' c /\ sameQ (ns th) c'' (tpgPrims th c) /\ sameh (ns th) c'' (tpgPrims th c).
Proof.
  intros th c HG V Hp HT. set (c' := tpgPrims th c). set (y := fracs c). set (T := cq c 4%Z) in *. set (R := gasConstant th y). set (rho := c_p c / (R * T)).
  assert (R0: 0 < R) by (now apply gas_pos). assert (HT0: 0 < T) by lra.
  assert (Rr: 0 < rho) by (unfold rho; apply Rdiv_lt_0_compat; [auto|nra]).
  assert (Pid: forall l, clipPrims (ns th) (cq c) l = cq c l) by (intros; now apply clipPrims_id).
  set (Yp := primsY (ns th) (cq c)).
  assert (EY: forall n, (0 <= n < ns th)%Z -> Yp n = withLast (ns th) y n).
  { intros n Hn. destruct (primsY_valid (ns th) (cq c)) as (_ & W). unfold Yp. rewrite W by auto. apply withLast_ext; auto. intros. now apply primsY_id. }
  assert (ER: mixR th Yp = R) by (now apply mixR_gas).
  assert (EH: tpgH th Yp T = mixtureH th y T) by (apply tpgH_spec; auto; lra).
  assert (EC: tpgCp th Yp T = mixtureCp th y T) by (now apply tpgCp_spec).
  assert (PR: c_p c / rho = R * T) by (unfold rho; field; repeat split; lra).
  (* what the primitive branch stored *)
  set (h := mixtureH th y T) in *. set (cp := mixtureCp th y T) in *.
  assert (C1: c' = mkCell (storeQ (ns th) (cQ c) rho (c_u c) (c_v c) (c_w c) (rho * (h - R * T) + halfSq (c_u c) (c_v c) (c_w c) * rho) Yp)
       (clipPrims (ns th) (cq c)) (storeqh (ns th) (ch c) (cp / (cp - R)) cp (rho * h) (sqrt (cp / (cp - R) * R * T)) (rho * (h - R * T)) (fun n => nasaH th n T))).
  { unfold c', tpgPrims. cbv zeta. fold Yp. rewrite !Pid. fold (c_p c) (c_u c) (c_v c) (c_w c) T. rewrite ER, EH, EC. fold rho. rewrite PR. reflexivity. }
  assert (Q0: cQ c' 0%Z = rho) by (rewrite C1; reflexivity).
  assert (Q5: forall n, (0 <= n < ns th - 1)%Z -> cQ c' (5 + n)%Z = y n * cQ c' 0%Z).
  { intros n Hn. rewrite Q0, C1. cbn [cQ]. rewrite storeQ_species by auto. rewrite EY by lia. unfold withLast. destruct (Z.eqb_spec n (ns th - 1)); [lia|auto]. }
  assert (YC: forall n, (0 <= n < ns th)%Z -> consY (ns th) (cQ c') n = withLast (ns th) y n) by (intros; apply consY_of_partials; auto; rewrite Q0; auto).
  assert (RC: mixR th (consY (ns th) (cQ c')) = R) by (now apply mixR_gas).
  assert (QL: forall l, (l < 5)%Z -> consQ (ns th) (cQ c') l = cQ c' l) by (intros; now apply consQ_low).
  set (e := (cQ c' 4%Z - halfSq (cQ c' 1%Z) (cQ c' 2%Z) (cQ c' 3%Z) / cQ c' 0%Z) / cQ c' 0%Z).
  assert (Ee: e = h - R * T). { unfold e. rewrite Q0, C1. cbn [cQ]. unfold storeQ; cbn [Z.eqb Pos.eqb]. unfold halfSq. field. lra. }
  assert (EHc: tpgH th (consY (ns th) (cQ c')) T = h) by (apply tpgH_spec; auto; lra).
  assert (ECc: tpgCp th (consY (ns th) (cQ c')) T = cp) by (now apply tpgCp_spec).
  assert (Nw: newtonRun (tpgStep th (consY (ns th) (cQ c')) e) (cq c' 4%Z) = Some (T, T, 0)).
  { assert (T4: cq c' 4%Z = T) by (rewrite C1; cbn [cq]; apply Pid). rewrite T4. apply newtonRun_exact; [auto|].
    exists T. split; [|auto]. unfold tpgStep. cbv zeta. rewrite RC, EHc, ECc, Ee. f_equal. f_equal; [ring|]. replace (h - R * T - (h - R * T)) with 0 by ring. unfold Rdiv. ring. }
  eexists. split.
  { unfold tpgCons. cbv zeta. rewrite !QL by lia. fold e. rewrite Nw, RC, EHc, ECc. reflexivity. }
  split; [|split].
  - intros l Hl. cbn [cq]. apply (index_cases l (ns th - 1) (fun l => storeq _ _ _ _ _ _ _ _ l = cq c l)); [lia| | | | | |].
    1-5: unfold storeq; cbn [Z.eqb Pos.eqb]. 6: { intros n Hn. rewrite storeq_species by auto. rewrite YC by lia. unfold withLast. destruct (Z.eqb_spec n (ns th - 1)); [lia|reflexivity]. }
    + rewrite Q0. unfold rho. fold (c_p c). field. lra.
    + rewrite Q0, C1. cbn [cQ]. unfold storeQ; cbn [Z.eqb Pos.eqb]. unfold c_u. field. lra.
    + rewrite Q0, C1. cbn [cQ]. unfold storeQ; cbn [Z.eqb Pos.eqb]. unfold c_v. field. lra.
    + rewrite Q0, C1. cbn [cQ]. unfold storeQ; cbn [Z.eqb Pos.eqb]. unfold c_w. field. lra.
    + reflexivity.
  - intros l Hl. cbn [cQ]. apply (index_cases l (ns th - 1) (fun l => consQ (ns th) (cQ c') l = cQ c' l)); [lia| | | | | |]; try (apply QL; lia).
    intros n Hn. rewrite consQ_species by (auto; rewrite Q0; auto). rewrite Q5, YC by (auto; lia). unfold withLast. destruct (Z.eqb_spec n (ns th - 1)); [lia|auto].
  - intros l Hl. cbn [ch]. rewrite Ee, Q0.
    assert (Ch: ch c' = storeqh (ns th) (ch c) (cp / (cp - R)) cp (rho * h) (sqrt (cp / (cp - R) * R * T)) (rho * (h - R * T)) (fun n => nasaH th n T)) by (now rewrite C1).
    rewrite Ch. unfold storeqh.
    destruct (l =? 0)%Z; auto. destruct (l =? 1)%Z; auto. destruct (l =? 2)%Z; auto. destruct (l =? 3)%Z; auto. destruct (l =? 4)%Z; auto.
    destruct ((5 <=? l) && (l <? 5 + ns th))%Z eqn:B; reflexivity.
Qed.

(** A two-species gas with constant NASA coefficients below 1000 K: cv = 12, and a half-half cell at 100 K. *)
Lemma exTpg_vals : gasConstant exTh (fracs exPrim) = 3 /\ forall T, mixtureCp exTh (fracs exPrim) T = 15 /\ mixtureH exTh (fracs exPrim) T = 15 * T.
Proof.
  split.
  - unfold gasConstant, sumZ. cbn [ns exTh Ru MW]. change (zrange 0 2) with [0%Z;1%Z]. cbn [map fold_right]. unfold withLast, sumZ. change (zrange 0 (2-1)) with [0%Z]. cbn [map fold_right]. unfold fracs. cbn. lra.
  - intros T. assert (E: forall n k, nasaRange exTh n T k = NASA7 exTh n (8 + k)%Z \/ nasaRange exTh n T k = NASA7 exTh n (1 + k)%Z) by (intros; unfold nasaRange; destruct Rle_dec; auto).
    assert (E0: forall n, nasaRange exTh n T 0%Z = 5) by (intros n; destruct (E n 0%Z) as [->| ->]; reflexivity).
    assert (EK: forall n k, (1 <= k <= 5)%Z -> nasaRange exTh n T k = 0).
    { intros n k Hk. assert (K: (k = 1 \/ k = 2 \/ k = 3 \/ k = 4 \/ k = 5)%Z) by lia.
      destruct (E n k) as [->| ->]; destruct K as [->|[->|[->|[->| ->]]]]; reflexivity. }
    split.
    + unfold mixtureCp, sumZ, speciesCp. cbv zeta. cbn [ns exTh Ru MW]. change (zrange 0 2) with [0%Z;1%Z]. cbn [map fold_right]. fold exTh. rewrite !E0, !EK by lia. unfold withLast, sumZ. change (zrange 0 (2-1)) with [0%Z]. cbn [map fold_right]. unfold fracs. cbn. lra.
    + unfold mixtureH, sumZ, speciesH. cbv zeta. cbn [ns exTh Ru MW]. change (zrange 0 2) with [0%Z;1%Z]. cbn [map fold_right]. fold exTh. rewrite !E0, !EK by lia. unfold withLast, sumZ. change (zrange 0 (2-1)) with [0%Z]. cbn [map fold_right]. unfold fracs. cbn. lra.
Qed.
Example C40_nonvacuous : exists c', 0 < c_rho (tpgPrims exTh exPrim) /\ tpgCons exTh (tpgPrims exTh exPrim) = Some c' /\ cq c' 4%Z = 100.
Proof.
  destruct C37_nonvacuous as (A & B & V & P & T). destruct (C88_tpg_round_trip exTh exPrim A V P) as (c' & E & Q & _). { cbn. lra. }
  exists c'. split; [|split; [auto|]].
  - unfold c_rho, tpgPrims. cbv zeta. cbn [cQ storeQ]. unfold storeQ. cbn [Z.eqb].
    apply Rdiv_lt_0_compat. { unfold clipPrims. cbn. lra. }
    rewrite (mixR_gas exTh _ (fracs exPrim)). { rewrite (proj1 exTpg_vals). unfold clipPrims. cbn. lra. }
    intros n Hn. destruct (primsY_valid (ns exTh) (cq exPrim)) as (_ & W). rewrite W by auto. apply withLast_ext; auto. intros. now apply primsY_id.
  - rewrite Q by (cbn; lia). reflexivity.
Qed.
Example C40_reproduces_nonvacuous : let e := 2400 + / 10 ^ 9 in let Tl := 200 in let y := fracs exPrim in
  let T := Tl - (internalEnergy exTh y Tl - e) / (mixtureCp exTh y Tl - gasConstant exTh y) in
  Tl < T /\ Rabs (internalEnergy exTh y Tl - e) <= / 10 ^ 8 /\
  (forall x, Rmin T Tl <= x <= Rmax T Tl -> offBreak exTh x /\ 0 < mixtureCp exTh y x - gasConstant exTh y <= 2 * (mixtureCp exTh y Tl - gasConstant exTh y)).
Proof.
  cbv zeta. destruct exTpg_vals as (G & M). unfold internalEnergy. rewrite G.
  destruct (M 200) as (-> & ->). assert (0 < / 10 ^ 9) by (apply Rinv_0_lt_compat; lra).
  assert (/ 10 ^ 9 <= / 10 ^ 8) by (apply Rinv_le_contravar; lra). assert (/ 10 ^ 8 <= 1) by (replace 1 with (/ 1) by field; apply Rinv_le_contravar; lra).
  split; [lra|]. split; [apply Rabs_le; lra|]. intros x Hx. destruct (M x) as (-> & _). split; [|lra].
  intros n Hn. cbn [NASA7 exTh Z.eqb]. rewrite Rmin_right, Rmax_left in Hx by lra. lra.
Qed.
Print Assumptions C88_tpg_round_trip.
