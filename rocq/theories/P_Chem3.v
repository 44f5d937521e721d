(** Chemistry: the temperature source (C70), the effect of clipping (C69), and concrete states. *)
From Coq Require Import Reals ZArith List Bool Lia Lra.
From Verif Require Import M_Halo S_Sum L_Grid1 L_Sum M_Thermo S_Thermo L_Thermo M_Chem M_Chem_FFCMY M_Chem_Skeletal M_Chem_GRI30 S_Chem L_Chem P_Chem P_Chem2.
Import ListNotations.
Open Scope R_scope.

(** C70: the kernel changes only the species entries of the right-hand side: density, momentum and total energy (which contains the
    formation energies) are untouched, whatever the state and the number of sub-steps *)
Theorem C70_total_energy_untouched : forall m th nSub dt q Q dQ dQ' om l, chemCell m th nSub dt q Q dQ = Some (dQ', om) -> (l < 5)%Z -> dQ' l = dQ l.
Proof.
  intros m th nSub dt q Q dQ dQ' om l H Hl. unfold chemCell in H. destruct (substeps _ _ _ _ _ _) as [[s [dY dT]]|]; [|discriminate].
  apply f_equal with (f := fun o => match o with Some (a, _) => a l | None => 0 end) in H. cbv beta iota in H. rewrite <- H. destruct (Z.leb_spec 5 l); [lia|]. reflexivity.
Qed.
(** what the temperature source is: the species enthalpies enter without the factor Ru*T/MW *)
Theorem C70_temperature_source_partial : forall m th rho tSub s s' dYdt dTdt, positiveMW th (m_ns m) -> 0 < Ru th -> 0 < cT s ->
  rho * sumZ 0 (m_ns m) (fun n => clampY (m_ns m) (cY s) n * speciesCp th n (cT s)) <> 0 ->
  substep m th rho tSub s = Some (s', (dYdt, dTdt)) ->
  dTdt * (rho * sumZ 0 (m_ns m) (fun n => clampY (m_ns m) (cY s) n * speciesCp th n (cT s))) =
  - sumZ 0 (m_ns m) (fun n => MW th n / (Ru th * cT s) * (speciesH th n (cT s) * dYdt n)).
Proof.
  intros m th rho tSub s s' dYdt dTdt HP HR HT HC H. unfold substep in H. destruct (stepRates m th rho s) as [q|] eqn:E; [|discriminate]. cbv zeta in H.
  pose proof (f_equal (fun o => match o with Some (_, (_, b)) => b | None => 0 end) H) as H1. pose proof (f_equal (fun o => match o with Some (_, (b, _)) => b | None => fun _ => 0 end) H) as H2.
  cbv beta iota in H1, H2. rewrite <- H1, <- H2. unfold tempSource. rewrite !accum_sum.
  assert (E1: sumZ 0 (m_ns m) (fun n => nasaCp th (cT s) n * clampY (m_ns m) (cY s) n) = sumZ 0 (m_ns m) (fun n => clampY (m_ns m) (cY s) n * speciesCp th n (cT s))).
  { apply sumZ_ext. intros n Hn. specialize (HP n Hn). unfold nasaCp, speciesCp, nasaRange, nasaM. destruct (Rle_dec (cT s) (NASA7 th n 0)); cbn [Z.add Pos.add Pos.succ]; field; lra. }
  assert (E2: sumZ 0 (m_ns m) (fun n => nasaH th (cT s) n * massSource m th q n) = sumZ 0 (m_ns m) (fun n => MW th n / (Ru th * cT s) * (speciesH th n (cT s) * massSource m th q n))).
  { apply sumZ_ext. intros n Hn. specialize (HP n Hn). unfold nasaH, speciesH, nasaRange, nasaM. destruct (Rle_dec (cT s) (NASA7 th n 0)); cbn [Z.add Pos.add Pos.succ]; field; lra. }
  rewrite E1, E2. field. split; intros Z0; apply HC; rewrite Z0; ring.
Qed.

(** *** a concrete gas: FFCMY species with atomic weights 1, 12, 16, and cp = 5/2 Ru/MW for every species *)
Definition exW (e : elem) : R := match e with eH => 1 | eC => 12 | eO => 16 | eN => 14 | eAr => 40 end.
Definition exMW (n : Z) : R := IZR (atomsOf ffcmy_formulas n eH) * 1 + IZR (atomsOf ffcmy_formulas n eC) * 12 + IZR (atomsOf ffcmy_formulas n eO) * 16
                             + IZR (atomsOf ffcmy_formulas n eN) * 14 + IZR (atomsOf ffcmy_formulas n eAr) * 40.
Definition exGas : thtr := mkTh 12 8314 exMW (fun _ => 0) (fun n k => if (k =? 0)%Z then 1000 else if (k =? 1)%Z then 5/2 else if (k =? 8)%Z then 5/2 else 0) (fun _ => 1) (fun _ => 1) (fun _ => 0).
(** half O, half CH3, at 1000 K and density 1 *)
Definition exY (n : Z) : R := if (n =? 3)%Z then 1/2 else if (n =? 7)%Z then 1/2 else 0.
Definition exState : chemState := mkCS exY 1000.
Ltac twelve n Hn := assert (n = 0 \/ n = 1 \/ n = 2 \/ n = 3 \/ n = 4 \/ n = 5 \/ n = 6 \/ n = 7 \/ n = 8 \/ n = 9 \/ n = 10 \/ n = 11)%Z as CASES by (cbn in Hn; lia);
  destruct CASES as [->|[->|[->|[->|[->|[->|[->|[->|[->|[->|[->| ->]]]]]]]]]]].
Ltac atoms := repeat match goal with |- context [atomsOf ffcmy_formulas ?n ?e] => let v := eval vm_compute in (atomsOf ffcmy_formulas n e) in change (atomsOf ffcmy_formulas n e) with v end.
Lemma exMW_ge1 n : (0 <= n < 12)%Z -> 1 <= exMW n.
Proof. intros Hn. twelve n Hn; unfold exMW; atoms; lra. Qed.
Lemma exGas_MW : positiveMW exGas 12.
Proof. intros n Hn. cbn. pose proof (exMW_ge1 n Hn). lra. Qed.
Lemma exGas_weights : atomicWeights ffcmy_formulas exGas 12 exW.
Proof. intros n Hn. cbn [MW exGas exW]. reflexivity. Qed.
Lemma sum12 f : sumZ 0 12 f = f 0%Z + (f 1%Z + (f 2%Z + (f 3%Z + (f 4%Z + (f 5%Z + (f 6%Z + (f 7%Z + (f 8%Z + (f 9%Z + (f 10%Z + (f 11%Z + 0))))))))))).
Proof. reflexivity. Qed.
Lemma sum11 f : sumZ 0 11 f = f 0%Z + (f 1%Z + (f 2%Z + (f 3%Z + (f 4%Z + (f 5%Z + (f 6%Z + (f 7%Z + (f 8%Z + (f 9%Z + (f 10%Z + 0)))))))))).
Proof. reflexivity. Qed.
Lemma exY_valid : validFracs 12 exY.
Proof.
  split.
  - intros n Hn. unfold exY. destruct (n =? 3)%Z; [lra|]. destruct (n =? 7)%Z; lra.
  - change (12 - 1)%Z with 11%Z. rewrite sum11. unfold exY. cbn [Z.eqb Pos.eqb]. lra.
Qed.
Lemma exClamp n : (0 <= n < 12)%Z -> clampY 12 exY n = exY n.
Proof.
  intros Hn. rewrite clampY_id by (auto using exY_valid; lia). unfold withLast. change (12 - 1)%Z with 11%Z. rewrite sum11. destruct (Z.eqb_spec n 11); [subst|auto]. unfold exY. cbn [Z.eqb Pos.eqb]. lra.
Qed.
Definition exCs : Z -> R := concs exGas 1 (clampY 12 exY).
Lemma exCs_zero n : (0 <= n < 12)%Z -> n <> 3%Z -> n <> 7%Z -> exCs n = 0.
Proof.
  intros Hn H3 H7. unfold exCs, concs. rewrite exClamp by auto. unfold exY. destruct (Z.eqb_spec n 3); [contradiction|]. destruct (Z.eqb_spec n 7); [contradiction|]. unfold Rdiv. ring.
Qed.
Lemma exCs_pos n : n = 3%Z \/ n = 7%Z -> 0 < exCs n.
Proof.
  intros H. assert (0 <= n < 12)%Z as Hn by lia. unfold exCs, concs. rewrite exClamp by lia. apply Rdiv_lt_0_compat; [|now apply exGas_MW]. destruct H as [-> | ->]; unfold exY; cbn [Z.eqb Pos.eqb]; lra.
Qed.
Lemma exCs_nonneg n : (0 <= n < 12)%Z -> 0 <= exCs n.
Proof. intros Hn. apply concs_nonneg; auto using exGas_MW. lra. Qed.
Lemma exRates : exists q, stepRates ffcmy exGas 1 exState = Some q.
Proof. apply (C103_rates_finite ffcmy ffcmy_formulas); [constructor|exact exGas_MW|lra|cbn; lra]. Qed.
(** which products vanish in this state *)
Definition missing (l : list (Z * Z)) : bool := existsb (fun ip => negb (fst ip =? 3)%Z && negb (fst ip =? 7)%Z && (0 <=? fst ip)%Z && (fst ip <? 12)%Z && (1 <=? snd ip)%Z) l.
Definition present (l : list (Z * Z)) : bool := forallb (fun ip => (fst ip =? 3)%Z || (fst ip =? 7)%Z) l.
Lemma prodc_missing l : missing l = true -> prodc l exCs = 0.
Proof.
  induction l as [|[i p] l IH]; cbn [missing existsb fst snd]; intros H; [discriminate|]. cbn [prodc fold_right fst snd]. fold (prodc l exCs). apply orb_true_iff in H as [H|H].
  - rewrite !andb_true_iff, !negb_true_iff, !Z.eqb_neq, !Z.leb_le, Z.ltb_lt in H. rewrite exCs_zero by lia. rewrite pow_i by lia. lra.
  - rewrite IH by exact H. lra.
Qed.
Lemma prodc_present l : present l = true -> 0 < prodc l exCs.
Proof.
  induction l as [|[i p] l IH]; cbn [present forallb fst snd]; intros H; cbn [prodc fold_right fst snd]; [lra|]. fold (prodc l exCs). apply andb_true_iff in H as [H1 H2].
  apply Rmult_lt_0_compat; [|now apply IH]. apply pow_lt, exCs_pos. apply orb_true_iff in H1. rewrite !Z.eqb_eq in H1. auto.
Qed.
Definition inactive (r : reac) : bool := missing (rF r) && (negb (rRev r) || missing (rB r)).
Lemma inactive_rate r T gbs pr x : inactive r = true -> rate r T exCs gbs pr = Some x -> x = 0.
Proof.
  intros H. unfold inactive in H. apply andb_true_iff in H as [H1 H2]. unfold rate. destruct (forwardK r T exCs); [|discriminate]. cbv zeta. rewrite !conc_prod, (prodc_missing _ H1).
  destruct (rRev r); cbn [negb orb] in H2; [rewrite (prodc_missing _ H2)|]; intros E; injection E as <-; ring.
Qed.
(** a plain reaction between the two species present, whose products are absent, runs forward *)
Definition active (r : reac) : bool := present (rF r) && (negb (rRev r) || missing (rB r)) && match rKind r with Plain => true | _ => false end && posK (rK r).
Lemma active_rate r T gbs pr x : 0 < T -> active r = true -> rate r T exCs gbs pr = Some x -> 0 < x.
Proof.
  intros HT H. unfold active in H. rewrite !andb_true_iff in H. destruct H as (((H1 & H2) & H3) & H4). unfold rate, forwardK. destruct (rKind r); try discriminate. cbv zeta. rewrite !conc_prod.
  pose proof (prodc_present _ H1). pose proof (kval_pos _ _ H4 HT). assert (0 < kval (rK r) T * prodc (rF r) exCs) by (now apply Rmult_lt_0_compat).
  destruct (rRev r); cbn [negb orb] in H2; [rewrite (prodc_missing _ H2)|]; intros E; injection E as <-; lra.
Qed.
Lemma exTable : forallb (fun ir => if ((fst ir =? 25) || (fst ir =? 26))%nat then active (snd ir) else inactive (snd ir)) (combine (seq 0 38) ffcmy_reactions) = true.
Proof. vm_compute. reflexivity. Qed.
Lemma nth_rates rs T cs gbs pr q i r : rates rs T cs gbs pr = Some q -> nth_error rs i = Some r -> rate r T cs gbs pr = Some (nth i q 0).
Proof.
  revert q i. induction rs as [|r0 rs IH]; intros q i H Hi; [destruct i; discriminate|]. cbn [rates] in H. destruct (rate r0 T cs gbs pr) as [x|] eqn:E; [|discriminate].
  destruct (rates rs T cs gbs pr) as [l|] eqn:EL; [|discriminate]. injection H as <-. destruct i; cbn in Hi |- *; [injection Hi as <-; auto|]. now apply IH.
Qed.
Lemma exRate_at q i : stepRates ffcmy exGas 1 exState = Some q -> if ((i =? 25) || (i =? 26))%nat then 0 < nth i q 0 else nth i q 0 = 0.
Proof.
  intros H. unfold stepRates in H. pose proof (rates_length _ _ _ _ _ _ H) as HL. destruct (Nat.lt_ge_cases i 38) as [L|L].
  2:{ destruct ((i =? 25) || (i =? 26))%nat eqn:E; [apply orb_true_iff in E; rewrite !Nat.eqb_eq in E; lia|]. rewrite nth_overflow; auto. rewrite HL. cbn. lia. }
  destruct (nth_error ffcmy_reactions i) as [r|] eqn:EN. 2:{ apply nth_error_None in EN. cbn in EN. lia. }
  pose proof (nth_rates _ _ _ _ _ _ _ _ H EN) as HR. pose proof exTable as ET. rewrite forallb_forall in ET. specialize (ET (i, r)).
  assert (HI: In (i, r) (combine (seq 0 38) ffcmy_reactions)).
  { apply nth_error_In with (n := i). assert (G: forall (A B : Type) (a : list A) (b : list B) k x y, nth_error a k = Some x -> nth_error b k = Some y -> nth_error (combine a b) k = Some (x, y)).
    { induction a as [|a0 a IH]; intros b k x y Ha Hb; [destruct k; discriminate|]. destruct b as [|b0 b]; [destruct k; discriminate|]. destruct k; cbn in *; [congruence|auto]. }
    apply G; auto. rewrite (nth_error_nth' _ 0%nat) by (rewrite seq_length; lia). rewrite seq_nth by lia. auto. }
  specialize (ET HI). cbn [fst snd] in ET. change (concs exGas 1 (clampY (m_ns ffcmy) (cY exState))) with exCs in HR.
  destruct ((i =? 25) || (i =? 26))%nat; [eapply active_rate; eauto; cbn; lra|eapply inactive_rate; eauto].
Qed.
Definition coefAt (l : list (Z * nat)) (i : nat) : Z := fold_right (fun ci s => if (snd ci =? i)%nat then fst ci + s else s)%Z 0%Z l.
Lemma two_terms (l : list (Z * nat)) q : (forall i, if ((i =? 25) || (i =? 26))%nat then True else nth i q 0 = 0) ->
  fold_right (fun ci s => IZR (fst ci) * nth (snd ci) q 0 + s) 0 l = IZR (coefAt l 25) * nth 25 q 0 + IZR (coefAt l 26) * nth 26 q 0.
Proof.
  intros H. induction l as [|[c i] l IH]; [cbn [fold_right coefAt]; lra|]. cbn [fold_right coefAt fst snd]. fold (coefAt l 25) (coefAt l 26). rewrite IH. specialize (H i).
  destruct (Nat.eqb_spec i 25) as [->|N1]; [cbn [Nat.eqb]; rewrite plus_IZR; ring|]. destruct (Nat.eqb_spec i 26) as [->|N2]; [rewrite plus_IZR; ring|].
  cbn [orb] in H. rewrite H. ring.
Qed.
Lemma exSource q n : stepRates ffcmy exGas 1 exState = Some q ->
  molarSource ffcmy q n = IZR (coefAt (nth (Z.to_nat n) ffcmy_sources []) 25) * nth 25 q 0 + IZR (coefAt (nth (Z.to_nat n) ffcmy_sources []) 26) * nth 26 q 0.
Proof.
  intros H. unfold molarSource. rewrite fold_terms_gen. change (m_src ffcmy) with ffcmy_sources. rewrite Rplus_0_l. apply two_terms. intros i. pose proof (exRate_at q i H) as E.
  destruct ((i =? 25) || (i =? 26))%nat; auto.
Qed.
(** species cp and enthalpy of this gas *)
Lemma exH n : speciesH exGas n 1000 = 8314 / exMW n * (5/2 * 1000).
Proof. unfold speciesH, nasaRange. cbn [NASA7 exGas Z.eqb Pos.eqb Z.add Pos.add Pos.succ MW Ru]. destruct (Rle_dec 1000 1000); cbn [Z.eqb Pos.eqb Z.add Pos.add Pos.succ]; unfold Rdiv; ring. Qed.

(** C70 refuted: in this state (one of the two active reactions makes three moles of products from two) the enthalpy of the species
    sources is not balanced by the temperature source *)
Theorem C70_temperature_source_refuted : exists m t th rho s, mechanism m t /\ positiveMW th (m_ns m) /\ 0 < rho /\ 0 < Ru th /\ 0 < cT s /\ validFracs (m_ns m) (cY s) /\
  0 < sumZ 0 (m_ns m) (fun n => clampY (m_ns m) (cY s) n * speciesCp th n (cT s)) /\
  exists tSub s' dYdt dTdt, substep m th rho tSub s = Some (s', (dYdt, dTdt)) /\
  dTdt * (rho * sumZ 0 (m_ns m) (fun n => clampY (m_ns m) (cY s) n * speciesCp th n (cT s))) <> - sumZ 0 (m_ns m) (fun n => speciesH th n (cT s) * dYdt n).
Proof.
  exists ffcmy, ffcmy_formulas, exGas, 1, exState. change (m_ns ffcmy) with 12%Z. cbn [cT cY exState].
  assert (CP: 0 < sumZ 0 12 (fun n => clampY 12 exY n * speciesCp exGas n 1000)).
  { assert (E: forall n, (0 <= n < 12)%Z -> 0 < speciesCp exGas n 1000).
    { intros n Hn. unfold speciesCp, nasaRange. cbn [NASA7 exGas Z.eqb Pos.eqb Z.add Pos.add Pos.succ MW Ru]. pose proof (exMW_ge1 n Hn).
      apply Rmult_lt_0_compat; [apply Rdiv_lt_0_compat; lra|]. destruct (Rle_dec 1000 1000); cbn [Z.eqb Pos.eqb]; lra. }
    apply Rlt_le_trans with (clampY 12 exY 3 * speciesCp exGas 3 1000).
    - rewrite exClamp by lia. apply Rmult_lt_0_compat; [unfold exY; cbn [Z.eqb Pos.eqb]; lra|apply E; lia].
    - apply (sumZ_ge_term 0 12 (fun n => clampY 12 exY n * speciesCp exGas n 1000) 3%Z); [|lia]. intros i Hi. apply Rmult_le_pos; [now apply clampY_nonneg|]. apply Rlt_le. auto. }
  split; [constructor|]. split; [exact exGas_MW|]. split; [lra|]. split; [cbn; lra|]. split; [lra|]. split; [exact exY_valid|]. split; [exact CP|].
  destruct exRates as (q & Hq). unfold substep. rewrite Hq. cbv zeta. exists 1. do 3 eexists. split; [reflexivity|].
  set (dT := tempSource _ _ _ _ _ _).
  assert (DT: dT * (1 * sumZ 0 12 (fun n => clampY 12 exY n * speciesCp exGas n 1000)) = - sumZ 0 12 (fun n => exMW n / (8314 * 1000) * (speciesH exGas n 1000 * massSource ffcmy exGas q n))).
  { pose proof (C70_temperature_source_partial ffcmy exGas 1 1 exState) as P. unfold substep in P. rewrite Hq in P. cbv zeta in P. change (m_ns ffcmy) with 12%Z in P. cbn [cT cY exState] in P.
    eapply P; [exact exGas_MW|cbn; lra|lra|lra|reflexivity]. }
  rewrite DT. rewrite (sumZ_ext 0 12 (fun n => exMW n / (8314 * 1000) * (speciesH exGas n 1000 * massSource ffcmy exGas q n)) (fun n => 5/2 * massSource ffcmy exGas q n)).
  2:{ intros n Hn. rewrite exH. pose proof (exMW_ge1 n Hn). field. lra. }
  rewrite sumZ_scale. assert (HL: List.length q = List.length (m_reacs ffcmy)) by (unfold stepRates in Hq; now apply rates_length in Hq).
  pose proof (C69_mass_conserved ffcmy ffcmy_formulas exGas exW q ltac:(constructor) exGas_weights HL) as MC. change (m_ns ffcmy) with 12%Z in MC. rewrite MC.
  rewrite (sumZ_ext 0 12 (fun n => speciesH exGas n 1000 * massSource ffcmy exGas q n) (fun n => 8314 * (5/2 * 1000) * molarSource ffcmy q n)).
  2:{ intros n Hn. rewrite exH. unfold massSource. cbn [MW exGas]. pose proof (exMW_ge1 n Hn). field. lra. }
  rewrite sumZ_scale, sum12. rewrite !(exSource q) by auto.
  pose proof (exRate_at q 26 Hq) as P26. cbn in P26.
  repeat match goal with |- context [coefAt (nth (Z.to_nat ?n) ffcmy_sources []) ?i] => let v := eval vm_compute in (coefAt (nth (Z.to_nat n) ffcmy_sources []) i) in change (coefAt (nth (Z.to_nat n) ffcmy_sources []) i) with v end.
  lra.
Qed.

(** C69 refuted beyond one sub-step: with two sub-steps and a large time step the composition is clipped between them, and the increments
    create hydrogen atoms *)
Definition exq (l : Z) : R := if (l =? 4)%Z then 1000 else if (5 <=? l)%Z then exY (l - 5) else 0.
Definition exQ (l : Z) : R := if (l =? 0)%Z then 1 else if (5 <=? l)%Z then exY (l - 5) else 0.
Theorem C69_clipping_refuted : exists m t th w dt q Q dQ dQ' om e, mechanism m t /\ positiveMW th (m_ns m) /\ atomicWeights t th (m_ns m) w /\ 0 < dt /\ 0 < Q 0%Z /\
  validFracs (m_ns m) (fun n => q (5 + n)%Z) /\ (forall n, (0 <= n < m_ns m - 1)%Z -> Q (5 + n)%Z = Q 0%Z * q (5 + n)%Z) /\
  chemCell m th 2 dt q Q dQ = Some (dQ', om) /\
  0 < sumZ 0 (m_ns m) (fun n => IZR (atomsOf t n e) * (increments (m_ns m) dQ dQ' n / MW th n)).
Proof.
  destruct exRates as (q0 & Hq). pose proof (exRate_at q0 25 Hq) as P25. pose proof (exRate_at q0 26 Hq) as P26. cbn in P25, P26.
  set (a := nth 25 q0 0) in *. set (b := nth 26 q0 0) in *. set (tau := / a + / b).
  assert (Ta: 1 <= a * tau /\ 1 <= b * tau /\ 0 < tau).
  { pose proof (Rinv_0_lt_compat _ P25). pose proof (Rinv_0_lt_compat _ P26). unfold tau. rewrite !Rmult_plus_distr_l, !Rinv_r by lra. assert (0 < a * / b) by (now apply Rmult_lt_0_compat). assert (0 < b * / a) by (now apply Rmult_lt_0_compat). lra. }
  destruct Ta as (T1 & T2 & T3). assert (T4: a * tau + b * tau = (a + b) * tau) by ring.
  set (st := start ffcmy exq).
  assert (EC0: forall n, (0 <= n < 12)%Z -> clampY 12 (cY (fst st)) n = exY n).
  { intros n Hn. assert (E: forall k, (0 <= k < 12)%Z -> cY (fst st) k = exY k).
    { intros k Hk. unfold st, start. cbn [fst cY]. change (m_ns ffcmy) with 12%Z. destruct (Z.ltb_spec k (12 - 1)).
      - unfold exq. destruct (Z.eqb_spec (5 + k) 4); [lia|]. destruct (Z.leb_spec 5 (5 + k)); [|lia]. f_equal. lia.
      - assert (k = 11)%Z by lia. subst k. reflexivity. }
    assert (V: validFracs 12 (cY (fst st))) by (apply (validFracs_ext 12 exY); [intros; symmetry; apply E; lia|exact exY_valid]).
    rewrite (clampY_id 12 (cY (fst st))) by (auto; lia). rewrite (withLast_ext 12 (cY (fst st)) exY) by (auto; intros; apply E; lia). rewrite <- (clampY_id 12 exY) by (auto using exY_valid; lia). now apply exClamp. }
  assert (HR0: stepRates ffcmy exGas 1 (fst st) = Some q0).
  { rewrite <- Hq. unfold stepRates. change (m_ns ffcmy) with 12%Z. change (cT (fst st)) with 1000. change (cT exState) with 1000.
    assert (G: forall rs c1 c2 gbs pr, (forall r, In r rs -> wfReac 12 r = true /\ posReac 12 r = true) -> (forall n, (0 <= n < 12)%Z -> c1 n = c2 n) -> rates rs 1000 c1 gbs pr = rates rs 1000 c2 gbs pr).
    { intros rs c1 c2 gbs pr HW E. assert (PC: forall l, inRange 12 l = true -> prodc l c1 = prodc l c2).
      { induction l as [|[i p] l IH]; intros H; auto. cbn [inRange forallb fst] in H. rewrite !andb_true_iff, Z.leb_le, Z.ltb_lt in H. destruct H as (H1 & H2). cbn [prodc fold_right fst snd]. fold (prodc l c1) (prodc l c2). rewrite IH, E by auto. auto. }
      assert (TB: forall tb, tbIn 12 tb = true -> tbc tb c1 = tbc tb c2).
      { intros tb. unfold tbc. generalize 0. induction tb as [|[i p] l IH]; intros z H; auto. cbn [tbIn forallb fst] in H. rewrite !andb_true_iff, Z.leb_le, Z.ltb_lt in H. destruct H as (H1 & H2). cbn [fold_left fst snd]. rewrite E by auto. auto. }
      induction rs as [|r rs IH]; auto. cbn [rates]. rewrite IH by (intros; apply HW; now right). destruct (HW r (or_introl eq_refl)) as (W & PR).
      unfold wfReac in W. rewrite !andb_true_iff in W. unfold posReac in PR. rewrite !andb_true_iff in PR.
      assert (FK: forwardK r 1000 c1 = forwardK r 1000 c2).
      { unfold forwardK. destruct (rKind r); auto; destruct PR as (_ & PR); rewrite ?andb_true_iff in PR; rewrite TB by tauto; auto. }
      unfold rate. rewrite FK. destruct (forwardK r 1000 c2); auto. cbv zeta. rewrite !conc_prod, !PC by tauto. auto. }
    apply G.
    - intros r Hr. destruct (checked ffcmy ffcmy_formulas is_ffcmy) as (_ & B & _ & _ & C & _). rewrite forallb_forall in B, C. split; [now apply B|now apply C].
    - intros n Hn. unfold concs. rewrite EC0, exClamp by auto. auto. }
  assert (HL: List.length q0 = List.length (m_reacs ffcmy)) by (unfold stepRates in Hq; now apply rates_length in Hq).
  pose proof (C69_mass_conserved ffcmy ffcmy_formulas exGas exW q0 ltac:(constructor) exGas_weights HL) as MC. change (m_ns ffcmy) with 12%Z in MC.
  (* the first sub-step *)
  destruct (substep ffcmy exGas 1 tau (fst st)) as [[s1 [dY1 dT1]]|] eqn:E1. 2:{ unfold substep in E1. rewrite HR0 in E1. discriminate. }
  assert (EY1: forall n, (0 <= n < 12)%Z -> cY s1 n = exY n + exMW n * molarSource ffcmy q0 n * tau).
  { intros n Hn. unfold substep in E1. rewrite HR0 in E1. cbv zeta in E1. apply f_equal with (f := fun o => match o with Some (x, _) => cY x n | None => 0 end) in E1. cbv beta iota in E1. cbn [cY] in E1.
    rewrite <- E1. change (m_ns ffcmy) with 12%Z. rewrite EC0 by auto. unfold massSource. cbn [MW exGas]. field. }
  assert (ET1: cT s1 = 1000).
  { unfold substep in E1. rewrite HR0 in E1. cbv zeta in E1. apply f_equal with (f := fun o => match o with Some (x, _) => cT x | None => 0 end) in E1. cbv beta iota in E1. cbn [cT] in E1.
    rewrite <- E1. change (cT (fst st)) with 1000. unfold tempSource. rewrite !accum_sum. change (m_ns ffcmy) with 12%Z.
    rewrite (sumZ_ext 0 12 (fun n => nasaH exGas 1000 n * massSource ffcmy exGas q0 n) (fun n => 5/2 * massSource ffcmy exGas q0 n)).
    - rewrite sumZ_scale, MC. unfold Rdiv. ring.
    - intros n Hn. unfold nasaH, nasaM. cbn [NASA7 exGas Z.eqb Pos.eqb]. destruct (Rle_dec 1000 1000); cbn [NASA7 exGas Z.add Pos.add Pos.succ Z.eqb Pos.eqb]; field. }
  assert (EW: forall n, (0 <= n < 12)%Z -> cY s1 n = exY n + exMW n * ((IZR (coefAt (nth (Z.to_nat n) ffcmy_sources []) 25) * a + IZR (coefAt (nth (Z.to_nat n) ffcmy_sources []) 26) * b) * tau)).
  { intros n Hn. rewrite EY1 by auto. rewrite (exSource q0) by auto. unfold a, b. ring. }
  (* the composition the second sub-step starts from *)
  assert (CL: forall n, (0 <= n < 12)%Z -> clampY 12 (cY s1) n = if ((n =? 0) || (n =? 1) || (n =? 9) || (n =? 10))%Z then 1/4 else 0).
  { set (c := fun n => Rmax (Rmin (cY s1 n) 1) 0).
    assert (EC: forall n, (0 <= n < 11)%Z -> c n = if ((n =? 0) || (n =? 1) || (n =? 9) || (n =? 10))%Z then 1 else 0).
    { assert (HI: forall n, 1 <= cY s1 n -> c n = 1) by (intros n H; unfold c; rewrite Rmin_right, Rmax_left by lra; auto).
      assert (LO: forall n, cY s1 n <= 0 -> c n = 0) by (intros n H; unfold c; rewrite Rmin_left, Rmax_right by lra; auto).
      intros n Hn. pose proof (EW n ltac:(lia)) as W. pose proof (exMW_ge1 n ltac:(lia)) as M1.
      assert (n = 0 \/ n = 1 \/ n = 2 \/ n = 3 \/ n = 4 \/ n = 5 \/ n = 6 \/ n = 7 \/ n = 8 \/ n = 9 \/ n = 10)%Z as CASES by lia.
      destruct CASES as [->|[->|[->|[->|[->|[->|[->|[->|[->|[->| ->]]]]]]]]]];
      match type of W with context [coefAt (nth (Z.to_nat ?n) ffcmy_sources []) 25] =>
        let v := eval vm_compute in (coefAt (nth (Z.to_nat n) ffcmy_sources []) 25) in let v' := eval vm_compute in (coefAt (nth (Z.to_nat n) ffcmy_sources []) 26) in
        change (coefAt (nth (Z.to_nat n) ffcmy_sources []) 25) with v in W; change (coefAt (nth (Z.to_nat n) ffcmy_sources []) 26) with v' in W end;
      cbn [Z.eqb Pos.eqb orb]; unfold exY in W; cbn [Z.eqb Pos.eqb] in W; first [apply HI; rewrite W; nra | apply LO; rewrite W; nra]. }
    assert (TS: accum 0 (12 - 1) c = 4).
    { rewrite accum_sum. change (12 - 1)%Z with 11%Z. rewrite (sumZ_ext 0 11 c (fun n => if ((n =? 0) || (n =? 1) || (n =? 9) || (n =? 10))%Z then 1 else 0)) by auto. rewrite sum11. cbn [Z.eqb Pos.eqb orb]. lra. }
    intros n Hn. unfold clampY, composition. fold c. cbv zeta. rewrite TS. destruct (Rlt_dec 1 4); [|lra]. change (12 - 1)%Z with 11%Z. destruct (Z.eqb_spec n 11).
    - subst. cbn [Z.eqb Pos.eqb orb]. auto.
    - change (Rmax (Rmin (cY s1 n) 1) 0) with (c n). rewrite EC by lia. destruct ((n =? 0) || (n =? 1) || (n =? 9) || (n =? 10))%Z; lra. }
  (* the second sub-step exists *)
  destruct (C103_rates_finite ffcmy ffcmy_formulas exGas 1 s1) as (q2 & Hq2); [constructor|exact exGas_MW|lra|rewrite ET1; lra|].
  destruct (substep ffcmy exGas 1 tau s1) as [[s2 [dY2 dT2]]|] eqn:E2. 2:{ unfold substep in E2. rewrite Hq2 in E2. discriminate. }
  pose proof (substep_elements ffcmy ffcmy_formulas exGas 1 tau s1 s2 (dY2, dT2) eH is_ffcmy exGas_MW E2) as CE. change (m_ns ffcmy) with 12%Z in CE.
  pose proof (substep_sum ffcmy ffcmy_formulas exGas exW 1 tau s1 s2 (dY2, dT2) is_ffcmy exGas_weights E2) as CS.
  assert (SS: substeps ffcmy exGas 1 tau 2 st = Some (s2, (dY2, dT2))) by (cbn [substeps]; rewrite E1; cbn [fst]; rewrite E2; auto).
  assert (CC: exists dQ' om, chemCell ffcmy exGas 2 (2 * tau) exq exQ (fun _ => 0) = Some (dQ', om) /\
     forall n, (0 <= n < 11)%Z -> dQ' (5 + n)%Z = 0 + (cY s2 n * exQ 0%Z - exQ (5 + n)%Z) / (2 * tau)).
  { unfold chemCell. fold (start ffcmy exq). fold st. change (exQ 0%Z) with 1. replace (2 * tau / INR 2) with tau by (cbn [INR]; field). rewrite SS. do 2 eexists. split; [reflexivity|].
    intros n Hn. cbv beta. change (m_ns ffcmy) with 12%Z. destruct (Z.leb_spec 5 (5 + n)); [|lia]. destruct (Z.ltb_spec (5 + n) (5 + (12 - 1))); [|lia]. cbn [andb]. replace (5 + n - 5)%Z with n by lia. auto. }
  destruct CC as (dQ' & om & HC & HI).
  exists ffcmy, ffcmy_formulas, exGas, exW, (2 * tau), exq, exQ, (fun _ => 0), dQ', om, eH. change (m_ns ffcmy) with 12%Z.
  assert (Eq5: forall n, (0 <= n < 11)%Z -> exq (5 + n)%Z = exY n /\ exQ (5 + n)%Z = exY n).
  { intros n Hn. unfold exq, exQ. destruct (Z.eqb_spec (5 + n) 4); [lia|]. destruct (Z.eqb_spec (5 + n) 0); [lia|]. destruct (Z.leb_spec 5 (5 + n)); [|lia]. replace (5 + n - 5)%Z with n by lia. auto. }
  split; [constructor|]. split; [exact exGas_MW|]. split; [exact exGas_weights|]. split; [lra|]. split; [cbn; lra|]. split.
  { apply (validFracs_ext 12 exY); [|exact exY_valid]. intros n Hn. symmetry. apply Eq5. lia. }
  split. { intros n Hn. destruct (Eq5 n ltac:(lia)) as (-> & ->). change (exQ 0%Z) with 1. lra. }
  split; [exact HC|].
  rewrite (increments_content ffcmy_formulas exGas 12 eH (fun _ => 0) dQ' exQ exY (cY s2) (2 * tau)); [|lia|lra|exact CS|intros n Hn; change (exQ 0%Z) with 1; destruct (Eq5 n ltac:(lia)) as (_ & ->); lra|intros n Hn; apply HI; lia].
  rewrite CE. change (exQ 0%Z) with 1. apply Rmult_lt_0_compat; [apply Rdiv_lt_0_compat; lra|].
  rewrite (content_ext ffcmy_formulas exGas 12 eH (clampY 12 (cY s1)) (fun n => if ((n =? 0) || (n =? 1) || (n =? 9) || (n =? 10))%Z then 1/4 else 0)) by auto.
  rewrite (content_ext ffcmy_formulas exGas 12 eH (withLast 12 exY) exY) by (intros n Hn; rewrite <- clampY_id by (auto using exY_valid; lia); now apply exClamp).
  unfold elementContent. rewrite !sum12. unfold exY. cbn [MW exGas]. unfold exMW. atoms. cbn [Z.eqb Pos.eqb orb]. lra.
Qed.

(** the hypotheses of the positive theorems are met: this state has finite rates, two of which are positive, and a sub-step is taken *)
Example C69_nonvacuous : mechanism ffcmy ffcmy_formulas /\ positiveMW exGas 12 /\ atomicWeights ffcmy_formulas exGas 12 exW /\ validFracs 12 exY /\
  exists s' d q, substep ffcmy exGas 1 1 exState = Some (s', d) /\ stepRates ffcmy exGas 1 exState = Some q /\ 0 < nth 25 q 0 /\ molarSource ffcmy q 1 <> 0 /\ cY s' 1%Z <> exY 1%Z.
Proof.
  split; [constructor|]. split; [exact exGas_MW|]. split; [exact exGas_weights|]. split; [exact exY_valid|].
  destruct exRates as (q & Hq). pose proof (exRate_at q 25 Hq) as P25. pose proof (exRate_at q 26 Hq) as P26. cbn in P25, P26.
  assert (MS: 0 < molarSource ffcmy q 1).
  { rewrite (exSource q) by auto. change (coefAt (nth (Z.to_nat 1) ffcmy_sources []) 25) with 1%Z. change (coefAt (nth (Z.to_nat 1) ffcmy_sources []) 26) with 1%Z. lra. }
  unfold substep. rewrite Hq. cbv zeta. do 3 eexists. split; [reflexivity|]. split; [reflexivity|]. split; [auto|]. split; [lra|].
  cbn [cY exState]. change (m_ns ffcmy) with 12%Z. rewrite exClamp by lia. unfold massSource. cbn [MW exGas]. assert (exMW 1 = 1) as -> by (unfold exMW; atoms; lra). unfold exY. cbn [Z.eqb Pos.eqb]. lra.
Qed.
(** every species present at standard concentration in a gas whose standard potentials vanish: an equilibrium of the skeletal mechanism *)
Definition zeroGas : thtr := mkTh 32 8314 (fun _ => 1) (fun _ => 0) (fun _ _ => 0) (fun _ => 1) (fun _ => 1) (fun _ => 0).
Example C101_nonvacuous : exists T cs q, 0 < T /\ 0 < Ru zeroGas /\ (forall n, (0 <= n < m_ns skeletal)%Z -> 0 < cs n) /\
  rates (m_reacs skeletal) T cs (nasaG zeroGas T) (pref zeroGas T) = Some q /\
  (forall r, In r (m_reacs skeletal) -> reactionGibbs (m_ns skeletal) r (potential (nasaG zeroGas T) cs (pref zeroGas T)) = 0).
Proof.
  exists 1000, (fun _ => pref zeroGas 1000). assert (P: 0 < pref zeroGas 1000) by (unfold pref; cbn [Ru zeroGas]; apply Rdiv_lt_0_compat; lra).
  destruct (rates_finite skeletal skeletal_formulas 1000 (fun _ => pref zeroGas 1000) (nasaG zeroGas 1000) (pref zeroGas 1000)) as (q & Hq); [exact is_skeletal|intros; cbv beta; lra|exists 0%Z; split; [change (m_ns skeletal) with 32%Z; lia|exact P]|lra|].
  exists q. split; [lra|]. split; [cbn; lra|]. split; [intros; exact P|]. split; [exact Hq|]. intros r _. unfold reactionGibbs. apply sumZ_zero. intros n Hn. unfold potential.
  replace (pref zeroGas 1000 / pref zeroGas 1000) with 1 by (field; lra). rewrite ln_1. unfold nasaG, nasaH, nasaS. cbn [NASA7 zeroGas]. unfold Rdiv. ring.
Qed.
Example C102_nonvacuous : exists q, stepRates ffcmy exGas 1 exState = Some q /\ clampY 12 (cY exState) 0 = 0 /\ massSource ffcmy exGas q 0 <> 0.
Proof.
  destruct exRates as (q & Hq). exists q. split; auto. split; [rewrite exClamp by lia; reflexivity|]. pose proof (exRate_at q 26 Hq) as P26. cbn in P26. unfold massSource. rewrite (exSource q) by auto.
  change (coefAt (nth (Z.to_nat 0) ffcmy_sources []) 25) with 0%Z. change (coefAt (nth (Z.to_nat 0) ffcmy_sources []) 26) with 1%Z. cbn [MW exGas]. pose proof (exMW_ge1 0 ltac:(lia)). nra.
Qed.
Print Assumptions C69_elements_conserved.
Print Assumptions C69_mass_conserved.
Print Assumptions C69_cell.
Print Assumptions C69_clipping_refuted.
Print Assumptions C70_temperature_source_refuted.
Print Assumptions C101_gibbs_never_produced.
Print Assumptions C102_small_substeps_stay_nonnegative.
Print Assumptions C103_rates_finite.
