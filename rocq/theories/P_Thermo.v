(** Properties C37, C38, C39, C87: ideal-gas equations of state. *)
From Coq Require Import Reals ZArith List Bool Lia Lra.
From Verif Require Import M_Topology M_Halo M_Grid M_Metrics S_Metrics S_Sum M_Flux M_FluxKernels S_FluxKernels M_Thermo S_Thermo L_Grid1 L_Sum L_Vec L_Thermo.
Import ListNotations.
Open Scope R_scope.

(** * Independent statements of what the two kernels store *)
Lemma halfSq_kin c : halfSq (c_u c) (c_v c) (c_w c) = kinetic c.
Proof. unfold halfSq, kinetic, dot3, vel, vx, vy, vz; cbn [fst snd]. field. Qed.

Section CPG.
Variable th : thtr.
Hypothesis HG : goodGas th.
Hypothesis HC : goodCp th.

(** entries of the cell after the primitive branch, when the given fractions are valid *)
Lemma cpgPrims_Q c : validFracs (ns th) (fracs c) -> 0 < c_p c -> 0 < cq c 4%Z ->
  let y := fracs c in let T := cq c 4%Z in let R := gasConstant th y in let rho := c_p c / (R * T) in
  let r := cpgPrims th c in
  (forall l, cq r l = cq c l) /\
  cQ r 0%Z = rho /\ cQ r 1%Z = rho * c_u c /\ cQ r 2%Z = rho * c_v c /\ cQ r 3%Z = rho * c_w c /\
  cQ r 4%Z = rho * ((heatCapacity th y - R) * T + kinetic c) /\
  (forall n, (0 <= n < ns th - 1)%Z -> cQ r (5 + n)%Z = rho * y n) /\
  ch r 0%Z = heatCapacity th y / (heatCapacity th y - R) /\ ch r 1%Z = heatCapacity th y /\ ch r 2%Z = rho * (heatCapacity th y * T) /\
  ch r 3%Z = sqrt (heatCapacity th y / (heatCapacity th y - R) * R * T) /\ ch r 4%Z = rho * ((heatCapacity th y - R) * T) /\
  (forall n, (0 <= n < ns th)%Z -> ch r (5 + n)%Z = T * cp0 th n).
Proof.
  intros V Hp HT y T R rho r.
  assert (Pid: forall l, clipPrims (ns th) (cq c) l = cq c l) by (intros; now apply clipPrims_id).
  assert (EY: forall n, (0 <= n < ns th)%Z -> primsY (ns th) (cq c) n = withLast (ns th) y n).
  { intros n Hn. destruct (primsY_valid (ns th) (cq c)) as (_ & W). rewrite W by auto. apply withLast_ext; auto. intros. now apply primsY_id. }
  assert (ER: mixR th (primsY (ns th) (cq c)) = R) by (now apply mixR_gas).
  assert (EC: mixCp0 th (primsY (ns th) (cq c)) = heatCapacity th y) by (now apply mixCp0_heat).
  assert (R0: 0 < R) by (now apply gas_pos). assert (RC: R < heatCapacity th y) by (now apply gas_lt_cp).
  assert (Rr: 0 < rho) by (unfold rho; apply Rdiv_lt_0_compat; [exact Hp|apply Rmult_lt_0_compat; [exact R0|exact HT]]).
  assert (PR: c_p c / rho = R * T). { unfold rho, c_p. field. unfold c_p in Hp. fold T in HT. repeat split; try lra. }
  unfold r, cpgPrims. cbv zeta. cbn [cQ cq ch]. rewrite ER, EC, !Pid. fold (c_p c) (c_u c) (c_v c) (c_w c) T rho. rewrite PR, halfSq_kin.
  unfold storeQ, storeqh. cbn [Z.eqb Pos.eqb].
  repeat split; auto; try ring.
  - intros n Hn. replace (5 + n =? 0)%Z with false by (symmetry; apply Z.eqb_neq; lia). replace (5 + n =? 1)%Z with false by (symmetry; apply Z.eqb_neq; lia).
    replace (5 + n =? 2)%Z with false by (symmetry; apply Z.eqb_neq; lia). replace (5 + n =? 3)%Z with false by (symmetry; apply Z.eqb_neq; lia).
    replace (5 + n =? 4)%Z with false by (symmetry; apply Z.eqb_neq; lia). replace (isSpecies (ns th) (5 + n)) with true by (symmetry; apply isSpecies_iff; lia).
    replace (5 + n - 5)%Z with n by lia. rewrite primsY_id by auto. fold y. ring.
  - intros n Hn. replace (5 + n =? 0)%Z with false by (symmetry; apply Z.eqb_neq; lia). replace (5 + n =? 1)%Z with false by (symmetry; apply Z.eqb_neq; lia).
    replace (5 + n =? 2)%Z with false by (symmetry; apply Z.eqb_neq; lia). replace (5 + n =? 3)%Z with false by (symmetry; apply Z.eqb_neq; lia).
    replace (5 + n =? 4)%Z with false by (symmetry; apply Z.eqb_neq; lia).
    replace ((5 <=? 5 + n) && (5 + n <? 5 + ns th))%Z with true by (symmetry; rewrite andb_true_iff, Z.leb_le, Z.ltb_lt; lia).
    replace (5 + n - 5)%Z with n by lia. reflexivity.
Qed.

(** entries after the conserved branch *)
Lemma cpgCons_q c y : (forall n, (0 <= n < ns th)%Z -> consY (ns th) (cQ c) n = withLast (ns th) y n) ->
  let rho := cQ c 0%Z in let R := gasConstant th y in let cp := heatCapacity th y in
  let e := (cQ c 4%Z - halfSq (cQ c 1%Z) (cQ c 2%Z) (cQ c 3%Z) / rho) / rho in let T := e / (cp - R) in
  let r := cpgCons th c in
  cq r 0%Z = rho * R * T /\ cq r 1%Z = cQ c 1%Z / rho /\ cq r 2%Z = cQ c 2%Z / rho /\ cq r 3%Z = cQ c 3%Z / rho /\ cq r 4%Z = T /\
  (forall n, (0 <= n < ns th - 1)%Z -> cq r (5 + n)%Z = y n) /\
  (forall l, (l < 5)%Z -> cQ r l = cQ c l) /\
  ch r 0%Z = cp / (cp - R) /\ ch r 1%Z = cp /\ ch r 2%Z = rho * (e + rho * R * T / rho) /\ ch r 3%Z = sqrt (cp / (cp - R) * R * T) /\ ch r 4%Z = rho * e /\
  (forall n, (0 <= n < ns th)%Z -> ch r (5 + n)%Z = T * cp0 th n).
Proof.
  intros EY rho R cp e T r.
  assert (ER: mixR th (consY (ns th) (cQ c)) = R) by (now apply mixR_gas).
  assert (EC: mixCp0 th (consY (ns th) (cQ c)) = cp) by (now apply mixCp0_heat).
  unfold r, cpgCons. cbv zeta. cbn [cQ cq ch]. rewrite ER, EC, !consQ_low by lia. fold rho e T.
  unfold storeq, storeqh. cbn [Z.eqb Pos.eqb]. repeat split; auto.
  - intros n Hn. replace (5 + n =? 0)%Z with false by (symmetry; apply Z.eqb_neq; lia). replace (5 + n =? 1)%Z with false by (symmetry; apply Z.eqb_neq; lia).
    replace (5 + n =? 2)%Z with false by (symmetry; apply Z.eqb_neq; lia). replace (5 + n =? 3)%Z with false by (symmetry; apply Z.eqb_neq; lia).
    replace (5 + n =? 4)%Z with false by (symmetry; apply Z.eqb_neq; lia). replace (isSpecies (ns th) (5 + n)) with true by (symmetry; apply isSpecies_iff; lia).
    replace (5 + n - 5)%Z with n by lia. rewrite EY by lia. unfold withLast. destruct (Z.eqb_spec n (ns th - 1)); [lia|auto].
  - intros l Hl. now apply consQ_low.
  - intros n Hn. replace (5 + n =? 0)%Z with false by (symmetry; apply Z.eqb_neq; lia). replace (5 + n =? 1)%Z with false by (symmetry; apply Z.eqb_neq; lia).
    replace (5 + n =? 2)%Z with false by (symmetry; apply Z.eqb_neq; lia). replace (5 + n =? 3)%Z with false by (symmetry; apply Z.eqb_neq; lia).
    replace (5 + n =? 4)%Z with false by (symmetry; apply Z.eqb_neq; lia).
    replace ((5 <=? 5 + n) && (5 + n <? 5 + ns th))%Z with true by (symmetry; rewrite andb_true_iff, Z.leb_le, Z.ltb_lt; lia).
    replace (5 + n - 5)%Z with n by lia. reflexivity.
Qed.
End CPG.

Lemma index_cases l nsp (P : Z -> Prop) : (0 <= l < 5 + nsp)%Z -> P 0%Z -> P 1%Z -> P 2%Z -> P 3%Z -> P 4%Z -> (forall n, (0 <= n < nsp)%Z -> P (5 + n)%Z) -> P l.
Proof.
  intros H P0 P1 P2 P3 P4 P5. destruct (Z_lt_dec l 5).
  - assert (l = 0 \/ l = 1 \/ l = 2 \/ l = 3 \/ l = 4)%Z as [-> | [-> | [-> | [-> | ->]]]] by lia; auto.
  - replace l with (5 + (l - 5))%Z by lia. apply P5. lia.
Qed.
(** Every physical state survives primitive -> conserved -> primitive, and the derived quantities agree. *)
Theorem C37_prims_cons : forall th c, goodGas th -> goodCp th -> validFracs (ns th) (fracs c) -> 0 < c_p c -> 0 < cq c 4%Z ->
  let c' := cpgPrims th c in let c'' := cpgCons th c' in
  sameq (ns th) c'' c /\ sameQ (ns th) c'' c' /\ sameh (ns th) c'' c'.
Proof.
  intros th c HG HC V Hp HT c' c''.
  pose proof (cpgPrims_Q th HG HC c V Hp HT) as A. cbv zeta in A. fold c' in A. destruct A as (Aq & A0 & A1 & A2 & A3 & A4 & A5 & H0 & H1 & H2 & H3 & H4 & H5).
  set (y := fracs c) in *. set (T := cq c 4%Z) in *. set (R := gasConstant th y) in *. set (cp := heatCapacity th y) in *. set (rho := c_p c / (R * T)) in *.
  assert (R0: 0 < R) by (now apply gas_pos). assert (RC: R < cp) by (now apply gas_lt_cp).
  assert (Rr: 0 < rho) by (unfold rho; apply Rdiv_lt_0_compat; [exact Hp|apply Rmult_lt_0_compat; [exact R0|exact HT]]).
  assert (EY: forall n, (0 <= n < ns th)%Z -> consY (ns th) (cQ c') n = withLast (ns th) y n).
  { intros n Hn. apply consY_of_partials; auto; [rewrite A0; auto|]. intros m Hm. rewrite A5, A0 by auto. ring. }
  pose proof (cpgCons_q th c' y EY) as B. cbv zeta in B. fold c'' R cp in B. rewrite A0, A1, A2, A3, A4 in B.
  set (e := (rho * ((cp - R) * T + kinetic c) - halfSq (rho * c_u c) (rho * c_v c) (rho * c_w c) / rho) / rho) in B.
  assert (Ee: e = (cp - R) * T).
  { unfold e, halfSq, kinetic, dot3, vel, vx, vy, vz; cbn [fst snd]. field. lra. }
  rewrite Ee in B. replace ((cp - R) * T / (cp - R)) with T in B by (field; lra).
  destruct B as (B0 & B1 & B2 & B3 & B4 & B5 & B6 & G0 & G1 & G2 & G3 & G4 & G5).
  split; [|split].
  - intros l Hl. apply (index_cases l (ns th - 1) (fun l => cq c'' l = cq c l)); [lia| | | | | |].
    + rewrite B0. unfold rho. fold (c_p c). field. lra.
    + rewrite B1. unfold c_u. field. lra.
    + rewrite B2. unfold c_v. field. lra.
    + rewrite B3. unfold c_w. field. lra.
    + exact B4.
    + intros n Hn. now rewrite B5.
  - intros l Hl. apply (index_cases l (ns th - 1) (fun l => cQ c'' l = cQ c' l)); [lia| | | | | |]; try (apply B6; lia).
    intros n Hn. unfold c'' at 1. unfold cpgCons. cbv zeta. cbn [cQ]. rewrite consQ_species by (auto; rewrite A0; auto). rewrite EY by lia.
    unfold withLast. destruct (Z.eqb_spec n (ns th - 1)); [lia|]. rewrite A5, A0 by auto. ring.
  - intros l Hl. apply (index_cases l (ns th) (fun l => ch c'' l = ch c' l)); [lia| | | | | |].
    + now rewrite G0, H0.
    + now rewrite G1, H1.
    + rewrite G2, H2. field. lra.
    + now rewrite G3, H3.
    + now rewrite G4, H4.
    + intros n Hn. now rewrite G5, H5.
Qed.
(** and conserved -> primitive -> conserved *)
Theorem C37_cons_prims : forall th c, goodGas th -> goodCp th -> 0 < cQ c 0%Z ->
  validFracs (ns th) (fun n => partials c n / cQ c 0%Z) ->
  (cQ c 1%Z ^ 2 + cQ c 2%Z ^ 2 + cQ c 3%Z ^ 2) / (2 * cQ c 0%Z) < cQ c 4%Z ->
  let c' := cpgCons th c in let c'' := cpgPrims th c' in
  sameQ (ns th) c'' c /\ sameq (ns th) c'' c' /\ sameh (ns th) c'' c'.
Proof.
  intros th c HG HC Hr V HE c' c''. set (y := fun n => partials c n / cQ c 0%Z) in *.
  assert (EY: forall n, (0 <= n < ns th)%Z -> consY (ns th) (cQ c) n = withLast (ns th) y n).
  { intros n Hn. apply consY_of_partials; auto. intros m Hm. unfold y, partials. field. lra. }
  pose proof (cpgCons_q th c y EY) as B. cbv zeta in B. fold c' in B.
  set (rho := cQ c 0%Z) in *. set (R := gasConstant th y) in *. set (cp := heatCapacity th y) in *.
  set (e := (cQ c 4%Z - halfSq (cQ c 1%Z) (cQ c 2%Z) (cQ c 3%Z) / rho) / rho) in *. set (T := e / (cp - R)) in *.
  assert (R0: 0 < R) by (now apply gas_pos). assert (RC: R < cp) by (now apply gas_lt_cp).
  assert (He: 0 < e). { unfold e. apply Rdiv_lt_0_compat; [|auto]. unfold halfSq.
    replace (5/10 * (cQ c 1%Z ^ 2 + cQ c 2%Z ^ 2 + cQ c 3%Z ^ 2) / rho) with ((cQ c 1%Z ^ 2 + cQ c 2%Z ^ 2 + cQ c 3%Z ^ 2) / (2 * rho)) by (field; lra). lra. }
  assert (HT: 0 < T) by (unfold T; apply Rdiv_lt_0_compat; lra).
  destruct B as (B0 & B1 & B2 & B3 & B4 & B5 & B6 & G0 & G1 & G2 & G3 & G4 & G5).
  assert (Vc: validFracs (ns th) (fracs c')) by (eapply validFracs_ext; [|exact V]; intros; unfold fracs; now rewrite B5).
  assert (Hp': 0 < c_p c') by (unfold c_p; rewrite B0; apply Rmult_lt_0_compat; nra).
  assert (HT': 0 < cq c' 4%Z) by (now rewrite B4).
  assert (Eg: gasConstant th (fracs c') = R). { unfold R, gasConstant. f_equal. apply sumZ_ext. intros. f_equal. apply withLast_ext; auto; intros; unfold fracs; now rewrite B5. }
  assert (Ec: heatCapacity th (fracs c') = cp). { unfold cp, heatCapacity. apply sumZ_ext. intros. f_equal. apply withLast_ext; auto; intros; unfold fracs; now rewrite B5. }
  pose proof (cpgPrims_Q th HG HC c' Vc Hp' HT') as A. cbv zeta in A. fold c'' in A. rewrite Eg, Ec in A.
  unfold c_p, c_u, c_v, c_w in A. rewrite B0, B1, B2, B3, B4 in A. replace (rho * R * T / (R * T)) with rho in A by (field; lra).
  destruct A as (Aq & A0 & A1 & A2 & A3 & A4 & A5 & H0 & H1 & H2 & H3 & H4 & H5).
  assert (EeT: (cp - R) * T = e) by (unfold T; field; lra).
  split; [|split].
  - intros l Hl. apply (index_cases l (ns th - 1) (fun l => cQ c'' l = cQ c l)); [lia| | | | | |].
    + exact A0.
    + rewrite A1. field. lra.
    + rewrite A2. field. lra.
    + rewrite A3. field. lra.
    + rewrite A4, EeT. unfold e, kinetic, dot3, vel, c_u, c_v, c_w, vx, vy, vz, halfSq; cbn [fst snd]. rewrite B1, B2, B3. field; try lra.
    + intros n Hn. rewrite A5 by auto. unfold fracs. rewrite B5 by auto. unfold y, partials. field. lra.
  - intros l Hl. apply Aq.
  - intros l Hl. apply (index_cases l (ns th) (fun l => ch c'' l = ch c' l)); [lia| | | | | |].
    + now rewrite G0, H0.
    + now rewrite G1, H1.
    + rewrite G2, H2, <- EeT. field. lra.
    + now rewrite G3, H3.
    + now rewrite G4, H4, EeT.
    + intros n Hn. now rewrite G5, H5.
Qed.
(** a binary mixture: non-vacuity of both hypotheses lists *)
Definition exTh : thtr := mkTh 2 8 (fun n => if (n =? 0)%Z then 2 else 4) (fun _ => 10) (fun n k => if (k =? 0)%Z then 1000 else if (k =? 1)%Z then 5 else if (k =? 8)%Z then 5 else 0)
   (fun _ => 100) (fun _ => 1000) (fun _ => 0).
Lemma exTh_good : goodGas exTh /\ goodCp exTh.
Proof.
  split; [split; [cbn; lia|split; [cbn; lra|]]|]; intros n Hn; cbn in *; assert (n = 0 \/ n = 1)%Z as [-> | ->] by lia; cbn; lra.
Qed.
Definition exPrim : cell := mkCell (fun _ => 0) (fun l => if (l =? 0)%Z then 600 else if (l =? 1)%Z then 3 else if (l =? 4)%Z then 100 else if (l =? 5)%Z then 1/2 else 0) (fun _ => 0).
Example C37_nonvacuous : goodGas exTh /\ goodCp exTh /\ validFracs (ns exTh) (fracs exPrim) /\ 0 < c_p exPrim /\ 0 < cq exPrim 4%Z.
Proof.
  destruct exTh_good as (A & B). split; [exact A|]. split; [exact B|]. split; [split|split].
  - intros n Hn. unfold fracs. assert (n = 0)%Z as -> by (cbn in Hn; lia). cbn. lra.
  - change (ns exTh - 1)%Z with 1%Z. unfold sumZ. change (zrange 0 1) with [0%Z]. cbn [map fold_right]. unfold fracs. cbn. lra.
  - unfold c_p; cbn; lra.
  - cbn. lra.
Qed.
Print Assumptions C37_prims_cons.

(** * C38 *)
(** Whatever (even negative or oversized) species masses come in, with positive density the composition that is
    stored, in Q and in q, is valid: for each of the three equations of state. *)
Definition implied (nsp : Z) (y : Z -> R) : R := 1 - sumZ 0 (nsp - 1) y.
Definition storedValid (nsp : Z) (c : cell) : Prop :=
  (forall n, (0 <= n < nsp - 1)%Z -> 0 <= partials c n / c_rho c <= 1 /\ fracs c n = partials c n / c_rho c) /\
  0 <= implied nsp (fun n => partials c n / c_rho c) <= 1 /\ 0 <= implied nsp (fracs c) <= 1.
Lemma stored_valid nsp c c' : 0 < c_rho c -> (forall l, cQ c' l = consQ nsp (cQ c) l) ->
  (forall n, (0 <= n < nsp - 1)%Z -> cq c' (5 + n)%Z = consY nsp (cQ c) n) -> storedValid nsp c'.
Proof.
  intros Hr EQ Eq. assert (E0: c_rho c' = c_rho c) by (unfold c_rho; rewrite EQ; apply consQ_low; lia).
  destruct (consY_valid nsp (cQ c) Hr) as ((A & B) & _).
  assert (EP: forall n, (0 <= n < nsp - 1)%Z -> partials c' n / c_rho c' = consY nsp (cQ c) n).
  { intros n Hn. unfold partials. rewrite EQ, consQ_species, E0 by auto. fold (c_rho c). field. lra. }
  assert (S: 0 <= sumZ 0 (nsp - 1) (consY nsp (cQ c))) by (apply sumZ_nonneg; intros; now apply A).
  split; [|split].
  - intros n Hn. rewrite EP by auto. split; [now apply A|]. unfold fracs. now apply Eq.
  - unfold implied. rewrite (sumZ_ext _ _ _ (consY nsp (cQ c))) by auto. lra.
  - unfold implied. rewrite (sumZ_ext _ _ _ (consY nsp (cQ c))) by (intros; unfold fracs; now apply Eq). lra.
Qed.
Lemma storeq_species nsp old p u v w T Y n : (0 <= n < nsp - 1)%Z -> storeq nsp old p u v w T Y (5 + n)%Z = Y n.
Proof.
  intros Hn. unfold storeq. replace (5 + n =? 0)%Z with false by (symmetry; apply Z.eqb_neq; lia). replace (5 + n =? 1)%Z with false by (symmetry; apply Z.eqb_neq; lia).
  replace (5 + n =? 2)%Z with false by (symmetry; apply Z.eqb_neq; lia). replace (5 + n =? 3)%Z with false by (symmetry; apply Z.eqb_neq; lia).
  replace (5 + n =? 4)%Z with false by (symmetry; apply Z.eqb_neq; lia). replace (isSpecies nsp (5 + n)) with true by (symmetry; apply isSpecies_iff; lia).
  now replace (5 + n - 5)%Z with n by lia.
Qed.
Lemma storeQ_species nsp old rho u v w E Y n : (0 <= n < nsp - 1)%Z -> storeQ nsp old rho u v w E Y (5 + n)%Z = Y n * rho.
Proof.
  intros Hn. unfold storeQ. replace (5 + n =? 0)%Z with false by (symmetry; apply Z.eqb_neq; lia). replace (5 + n =? 1)%Z with false by (symmetry; apply Z.eqb_neq; lia).
  replace (5 + n =? 2)%Z with false by (symmetry; apply Z.eqb_neq; lia). replace (5 + n =? 3)%Z with false by (symmetry; apply Z.eqb_neq; lia).
  replace (5 + n =? 4)%Z with false by (symmetry; apply Z.eqb_neq; lia). replace (isSpecies nsp (5 + n)) with true by (symmetry; apply isSpecies_iff; lia).
  now replace (5 + n - 5)%Z with n by lia.
Qed.
Theorem C38_cpg_composition_valid : forall th c, 0 < c_rho c -> storedValid (ns th) (cpgCons th c).
Proof. intros th c Hr. apply (stored_valid _ c); auto. intros n Hn. unfold cpgCons. cbv zeta. cbn [cq]. now apply storeq_species. Qed.
Theorem C38_tpg_composition_valid : forall th c c', 0 < c_rho c -> tpgCons th c = Some c' -> storedValid (ns th) c'.
Proof.
  intros th c c' Hr E. unfold tpgCons in E. cbv zeta in E. destruct newtonRun as [[[T Tl] er]|]; [|discriminate]. injection E as <-.
  apply (stored_valid _ c); auto. intros n Hn. cbn [cq]. now apply storeq_species.
Qed.
Theorem C38_cubic_composition_valid : forall th c c', 0 < c_rho c -> cubicCons th c = Some c' -> storedValid (ns th) c'.
Proof.
  intros th c c' Hr E. unfold cubicCons in E. cbv zeta in E. destruct newtonRun as [[[T Tl] er]|]; [|discriminate].
  destruct rgAt as [v|]; [|discriminate]. injection E as <-.
  apply (stored_valid _ c); auto. intros n Hn. cbn [cq]. now apply storeq_species.
Qed.
(** valid inputs are left alone: the clipping neither creates nor destroys species mass *)
Theorem C38_valid_untouched : forall th c n, 0 < c_rho c -> validFracs (ns th) (fun n => partials c n / c_rho c) -> (0 <= n < ns th - 1)%Z ->
  partials (cpgCons th c) n = partials c n.
Proof.
  intros th c n Hr V Hn. unfold partials, cpgCons. cbv zeta. cbn [cQ]. rewrite consQ_species by auto.
  rewrite (consY_of_partials (ns th) (cQ c) (fun n => partials c n / c_rho c)); [|exact Hr|exact V|intros; unfold partials, c_rho in *; field; lra|lia].
  unfold withLast. destruct (Z.eqb_spec n (ns th - 1)); [lia|]. unfold partials, c_rho in *. field. lra.
Qed.
Example C38_nonvacuous : exists c, 0 < c_rho c /\ partials c 0 < 0 /\ 1 < partials c 1 / c_rho c.
Proof. exists (mkCell (fun l => if (l =? 0)%Z then 1 else if (l =? 5)%Z then -1 else 2) (fun _ => 0) (fun _ => 0)). unfold c_rho, partials. cbn. lra. Qed.
Print Assumptions C38_cubic_composition_valid.

(** * C39 *)
(** After the primitive branch, stored fraction and stored partial density agree whenever the given fractions do not
    add up to more than one... *)
Lemma prims_species th c Q' : (forall n, (0 <= n < ns th - 1)%Z -> Q' (5 + n)%Z = primsY (ns th) (cq c) n * Q' 0%Z) ->
  (forall n, (0 <= n < ns th - 1)%Z -> 0 <= fracs c n <= 1) -> sumZ 0 (ns th - 1) (fracs c) <= 1 ->
  forall n, (0 <= n < ns th - 1)%Z -> Q' (5 + n)%Z = Q' 0%Z * clipPrims (ns th) (cq c) (5 + n)%Z.
Proof. intros E A B n Hn. rewrite E by auto. rewrite primsY_id by (auto; split; auto). rewrite clipPrims_id by (split; auto). unfold fracs. ring. Qed.
Theorem C39_consistent_partial : forall th c c', In c' ((cpgPrims th c) :: (tpgPrims th c) :: match cubicPrims th c with Some x => [x] | None => [] end) ->
  (forall n, (0 <= n < ns th - 1)%Z -> 0 <= fracs c n <= 1) -> sumZ 0 (ns th - 1) (fracs c) <= 1 ->
  forall n, (0 <= n < ns th - 1)%Z -> partials c' n = c_rho c' * fracs c' n.
Proof.
  intros th c c' HI A B n Hn. unfold partials, fracs, c_rho. destruct HI as [<-|[<-|HI]].
  - unfold cpgPrims. cbv zeta. cbn [cQ cq]. apply prims_species; auto. intros. now rewrite storeQ_species.
  - unfold tpgPrims. cbv zeta. cbn [cQ cq]. apply prims_species; auto. intros. now rewrite storeQ_species.
  - destruct (cubicPrims th c) as [x|] eqn:E; [|destruct HI]. destruct HI as [<-|[]]. unfold cubicPrims in E. cbv zeta in E.
    destruct cubicRoot as [Z|]; [|discriminate]. injection E as <-. cbn [cQ cq]. apply prims_species; auto. intros. now rewrite storeQ_species.
Qed.
(** ... otherwise q keeps the unnormalised fractions while Q gets the normalised ones. *)
Definition exTh3 : thtr := mkTh 3 8 (fun _ => 2) (fun _ => 10) (fun _ _ => 0) (fun _ => 100) (fun _ => 1000) (fun _ => 0).
Definition exOver : cell := mkCell (fun _ => 0) (fun l => if (l =? 0)%Z then 400 else if (l =? 4)%Z then 100 else if (5 <=? l)%Z then 1 else 0) (fun _ => 0).
Theorem C39_oversized_refuted : exists th c, goodGas th /\ goodCp th /\ 0 < c_p c /\ 0 < cq c 4%Z /\
  exists n, (0 <= n < ns th - 1)%Z /\ partials (cpgPrims th c) n <> c_rho (cpgPrims th c) * fracs (cpgPrims th c) n.
Proof.
  exists exTh3, exOver. split; [|split; [|split; [|split]]].
  - split; [cbn; lia|split; [cbn; lra|intros; cbn; lra]].
  - intros n Hn. cbn. lra.
  - unfold c_p; cbn; lra.
  - cbn; lra.
  - exists 0%Z. split; [cbn; lia|].
    assert (EY: forall n, (0 <= n < 3)%Z -> primsY 3 (cq exOver) n = if (n =? 2)%Z then 0 else 1/2).
    { intros n Hn. unfold primsY, composition. cbv zeta. unfold accum. cbn [zrange Z.sub Z.to_nat Pos.to_nat]. change (zrange 0 (3 - 1)) with [0%Z; 1%Z]. cbn [fold_left].
      assert (CE: forall m, (0 <= m < 2)%Z -> clipPrims 3 (cq exOver) (5 + m)%Z = 1).
      { intros m Hm. unfold clipPrims. replace (isSpecies 3 (5 + m)) with true by (symmetry; apply isSpecies_iff; lia).
        assert (m = 0 \/ m = 1)%Z as [-> | ->] by lia; cbn; rewrite Rmin_left, Rmax_left by lra; auto. }
      rewrite (CE 0%Z), (CE 1%Z) by lia. destruct Rlt_dec; [|lra]. change (3 - 1)%Z with 2%Z. destruct (Z.eqb_spec n 2); auto. rewrite CE by lia. lra. }
    unfold partials, fracs. assert (E0: cpgPrims exTh3 exOver = cpgPrims exTh3 exOver) by auto.
    unfold cpgPrims at 1. cbv zeta. cbn [cQ]. rewrite storeQ_species by (cbn; lia). cbn [ns exTh3]. rewrite EY by lia.
    assert (RR: mixR exTh3 (primsY 3 (cq exOver)) = 4).
    { unfold mixR. rewrite (accum_ext _ _ _ (fun n => (if (n =? 2)%Z then 0 else 1/2) / 2)).
      - cbn [ns exTh3]. unfold accum. change (zrange 0 3) with [0%Z; 1%Z; 2%Z]. cbn [fold_left Z.eqb Pos.eqb Ru exTh3]. lra.
      - intros n Hn. cbn [ns exTh3] in *. rewrite EY by lia. reflexivity. }
    unfold c_rho, cpgPrims. cbv zeta. cbn [cQ cq]. change (ns exTh3) with 3%Z. rewrite RR.
    unfold storeQ. cbn [Z.eqb Pos.eqb]. unfold clipPrims at 1 2 3 4. replace (isSpecies 3 0) with false by reflexivity. replace (isSpecies 3 4) with false by reflexivity.
    assert (C5: clipPrims 3 (cq exOver) (5 + 0)%Z = 1) by (unfold clipPrims; cbn; rewrite Rmin_left, Rmax_left by lra; auto).
    rewrite C5. cbn [exOver cq Z.eqb Pos.eqb]. lra.
Qed.
Print Assumptions C39_oversized_refuted.

(** * C87: the state relations themselves *)
(** Ideal gas law, caloric relation, enthalpy, ratio of specific heats and sound speed after the primitive branch; the
    cell is coherent in the sense the flux kernels need. *)
Theorem C87_cpg_state_relations : forall th c, goodGas th -> goodCp th -> validFracs (ns th) (fracs c) -> 0 < c_p c -> 0 < cq c 4%Z ->
  let r := cpgPrims th c in let y := fracs r in let T := cq r 4%Z in let R := gasConstant th y in let cp := heatCapacity th y in
  c_p r = c_rho r * R * T /\ 0 < c_rho r /\
  c_re r = c_rho r * (cp - R) * T /\ ch r 2%Z = c_re r + c_p r /\
  ch r 1%Z = cp /\ ch r 0%Z = cp / (cp - R) /\ 1 < ch r 0%Z /\
  c_c r * c_c r = ch r 0%Z * c_p r / c_rho r /\ 0 < c_c r /\
  ch r 2%Z = c_rho r * sumZ 0 (ns th) (fun n => withLast (ns th) y n * ch r (5 + n)%Z) /\
  coherentN (ns th) r.
Proof.
  intros th c HG HC V Hp HT r y0 T0 R0' cp0'.
  pose proof (cpgPrims_Q th HG HC c V Hp HT) as A. cbv zeta in A. fold r in A. destruct A as (Aq & A0 & A1 & A2 & A3 & A4 & A5 & H0 & H1 & H2 & H3 & H4 & H5).
  assert (Ey: y0 = fracs c \/ True) by auto. clear Ey.
  assert (EG: R0' = gasConstant th (fracs c)).
  { unfold R0', gasConstant. f_equal. apply sumZ_ext. intros. f_equal. apply withLast_ext; auto; intros; unfold y0, fracs; now rewrite Aq. }
  assert (EC: cp0' = heatCapacity th (fracs c)).
  { unfold cp0', heatCapacity. apply sumZ_ext. intros. f_equal. apply withLast_ext; auto; intros; unfold y0, fracs; now rewrite Aq. }
  assert (ET: T0 = cq c 4%Z) by (unfold T0; apply Aq).
  rewrite EG, EC, ET. set (y := fracs c) in *. set (T := cq c 4%Z) in *. set (R := gasConstant th y) in *. set (cp := heatCapacity th y) in *. set (rho := c_p c / (R * T)) in *.
  assert (R0: 0 < R) by (now apply gas_pos). assert (RC: R < cp) by (now apply gas_lt_cp).
  assert (Rr: 0 < rho) by (unfold rho; apply Rdiv_lt_0_compat; [exact Hp|apply Rmult_lt_0_compat; [exact R0|exact HT]]).
  assert (PR: c_p c = rho * R * T) by (unfold rho; field; lra).
  unfold c_p at 1 2 3, c_rho, c_re, c_c. rewrite !Aq, A0, H0, H1, H2, H3, H4. fold (c_p c). 
  assert (GP: 0 < cp / (cp - R)) by (apply Rdiv_lt_0_compat; lra).
  assert (G2: 0 < cp / (cp - R) * R * T) by (apply Rmult_lt_0_compat; [apply Rmult_lt_0_compat|]; auto).
  split; [exact PR|]. split; [exact Rr|]. split; [ring|]. split; [rewrite PR; ring|]. split; [auto|]. split; [auto|].
  split. { apply Rmult_lt_reg_r with (cp - R); [lra|]. unfold Rdiv. rewrite Rmult_assoc, Rinv_l by lra. lra. }
  split. { rewrite sqrt_sqrt by lra. rewrite PR. field. lra. }
  split; [now apply sqrt_lt_R0|].
  split.
  { f_equal. unfold cp, heatCapacity. rewrite Rmult_comm, <- sumZ_scale. apply sumZ_ext. intros i Hi. rewrite H5 by auto.
    rewrite (withLast_ext (ns th) y0 y); auto; [ring|]. intros. unfold y0, fracs. now rewrite Aq. }
  unfold coherentN, c_rho, c_u, c_v, c_w, c_E, c_re, vel, c_u, c_v, c_w. rewrite !Aq, A0, A1, A2, A3, A4, H4. unfold c_u, c_v, c_w.
  split; [lra|]. repeat split; auto.
  - unfold kinetic, vel, c_u, c_v, c_w. field.
  - intros l Hl. replace l with (5 + (l - 5))%Z by lia. rewrite A5 by lia. now rewrite Aq.
Qed.
Theorem C87_nonneg_energy_split : forall th c, goodGas th -> goodCp th -> 0 < c_rho c ->
  (cQ c 1%Z ^ 2 + cQ c 2%Z ^ 2 + cQ c 3%Z ^ 2) / (2 * c_rho c) < c_E c ->
  let r := cpgCons th c in
  0 < c_p r /\ 0 < cq r 4%Z /\ c_p r = c_rho r * gasConstant th (fracs r) * cq r 4%Z /\ 0 < c_c r /\ coherentN (ns th) r.
Proof.
  intros th c HG HC Hr HE r. set (y := consY (ns th) (cQ c)).
  destruct (consY_valid (ns th) (cQ c) Hr) as (V & W). fold y in V, W.
  pose proof (cpgCons_q th c y W) as B. cbv zeta in B. fold r in B. fold (c_rho c) in *.
  set (rho := c_rho c) in *. set (R := gasConstant th y) in *. set (cp := heatCapacity th y) in *.
  set (e := (cQ c 4%Z - halfSq (cQ c 1%Z) (cQ c 2%Z) (cQ c 3%Z) / rho) / rho) in *. set (T := e / (cp - R)) in *.
  assert (R0: 0 < R) by (now apply gas_pos). assert (RC: R < cp) by (now apply gas_lt_cp).
  assert (He: 0 < e). { unfold e. apply Rdiv_lt_0_compat; [|auto]. unfold halfSq. unfold c_E in HE.
    replace (5/10 * (cQ c 1%Z ^ 2 + cQ c 2%Z ^ 2 + cQ c 3%Z ^ 2) / rho) with ((cQ c 1%Z ^ 2 + cQ c 2%Z ^ 2 + cQ c 3%Z ^ 2) / (2 * rho)) by (field; lra). lra. }
  assert (HT: 0 < T) by (unfold T; apply Rdiv_lt_0_compat; lra).
  destruct B as (B0 & B1 & B2 & B3 & B4 & B5 & B6 & G0 & G1 & G2 & G3 & G4 & G5).
  assert (Eg: gasConstant th (fracs r) = R). { unfold R, gasConstant. f_equal. apply sumZ_ext. intros. f_equal. apply withLast_ext; auto; intros; unfold fracs; now rewrite B5. }
  assert (E0: c_rho r = rho) by (unfold c_rho; now rewrite B6 by lia).
  rewrite Eg, E0. unfold c_p, c_c. rewrite B0, B4, G3.
  assert (GP: 0 < cp / (cp - R)) by (apply Rdiv_lt_0_compat; lra).
  split; [apply Rmult_lt_0_compat; [apply Rmult_lt_0_compat|]; auto|]. split; [auto|]. split; [auto|].
  split; [apply sqrt_lt_R0; apply Rmult_lt_0_compat; [apply Rmult_lt_0_compat|]; auto|].
  unfold coherentN. rewrite E0. unfold c_u, c_v, c_w, c_E, c_re, vel, c_u, c_v, c_w. rewrite B1, B2, B3, G4, !B6 by lia.
  split; [lra|]. repeat split; try (field; lra).
  - unfold e, halfSq, dot3, vx, vy, vz; cbn [fst snd]. field. lra.
  - intros l Hl. replace l with (5 + (l - 5))%Z by lia. rewrite B5 by lia.
    unfold r, cpgCons. cbv zeta. cbn [cQ]. rewrite consQ_species by (auto; lia). fold y. fold (c_rho c). fold rho. ring.
Qed.
Example C87_nonvacuous : c_rho (cpgPrims exTh exPrim) = 2 /\ ch (cpgPrims exTh exPrim) 0%Z = 10/7.
Proof.
  destruct C37_nonvacuous as (A & B & V & P & T).
  destruct (cpgPrims_Q exTh A B exPrim V P T) as (_ & A0 & _ & _ & _ & _ & _ & H0 & _).
  assert (G: gasConstant exTh (fracs exPrim) = 3). { unfold gasConstant, sumZ. cbn [ns exTh Ru MW]. change (zrange 0 2) with [0%Z;1%Z]. cbn [map fold_right]. unfold withLast, sumZ. change (zrange 0 (2-1)) with [0%Z]. cbn [map fold_right]. unfold fracs. cbn. lra. }
  assert (H: heatCapacity exTh (fracs exPrim) = 10). { unfold heatCapacity, sumZ. cbn [ns exTh cp0]. change (zrange 0 2) with [0%Z;1%Z]. cbn [map fold_right]. unfold withLast, sumZ. change (zrange 0 (2-1)) with [0%Z]. cbn [map fold_right]. unfold fracs. cbn. lra. }
  unfold c_rho. rewrite A0, H0, G, H. unfold c_p. cbn. lra.
Qed.
Print Assumptions C87_cpg_state_relations.
