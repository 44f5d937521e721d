(** C163, where restarting does not give what going on would have given: thermally perfect gases, and boundary data that vary in time. *)
From Coq Require Import Reals ZArith NArith String Ascii List Bool Lia Lra Permutation.
From Verif Require Import M_Topology M_Halo M_Grid M_Metrics M_Procs M_Io S_Io L_Io L_Io2 P_Io P_Io2 M_Flux M_FluxKernels S_Metrics S_FluxKernels S_Sum L_Sum M_Thermo S_Thermo L_Thermo P_Thermo P_Tpg
  M_Run S_Run L_Run P_Run M_Time S_Time P_Time P_Time2 P_Time3 M_Restarted S_Restarted L_Restarted L_Restarted2 P_Restarted.
Import ListNotations.
Open Scope R_scope.

(** the conserved branch of the thermally perfect gas, as a total function (a NaN leaves the cell alone) *)
Definition tpgConsT (th : thtr) (c : cell) : cell := match tpgCons th c with Some c' => c' | None => c end.
(** For the thermally perfect gas the primitives of every interior cell are restored exactly (from 1 K), with the iteration number and time... *)
Theorem C163_tpg_primitives : forall th species lump anim n t procs ranks order rs d0, goodGas th ->
  goodNames species -> Z.of_nat (List.length species) = ns th ->
  spread procs (map (map sb_io) ranks) -> Permutation order (concat ranks) ->
  (forall b, In b (concat ranks) -> goodDims (io_dims (sb_io b)) /\ io_species (sb_io b) = species /\ io_solver (sb_io b) = true) ->
  Forall2 setUpFor rs (map sb_io (concat ranks)) ->
  (forall b i j k, In b (concat ranks) -> isCell (io_dims (sb_io b)) i j k -> let c := cellAt b i j k in validFracs (ns th) (fracs c) /\ 0 < c_p c /\ 1 <= cq c 4%Z) ->
  exists d bs, writeRun lump anim n t procs ranks species order d0 = Some d /\ bootstrap (tpgPrims th) (tpgConsT th) lump anim n d rs = Some bs /\
    Forall2 (fun b b' => io_num (sb_io b) = io_num (sb_io b') /\ io_dims (sb_io b) = io_dims (sb_io b') /\ io_nrt (sb_io b') = n /\ io_tme (sb_io b') = t /\
                         forall i j k, isCell (io_dims (sb_io b)) i j k -> sameq (ns th) (cellAt b i j k) (cellAt b' i j k)) (concat ranks) bs.
Proof.
  intros th species lump anim n t procs ranks order rs d0 HG GN Ns Sp Pe G Su Ph.
  apply (boot_spec (tpgPrims th) (tpgConsT th) (sameq (ns th)) species (ns th) lump anim n t procs ranks order rs d0 GN Ns Sp Pe G Su).
  intros b i j k I C c1 S1. destruct (Ph b i j k I C) as (V & P & T). assert (N: (1 <= ns th)%Z) by apply HG.
  destruct (C88_tpg_round_trip th c1 HG) as (c2 & E & Q & _).
  - eapply validFracs_ext; [|exact V]. intros m Hm. unfold fracs. symmetry. apply S1. lia.
  - unfold c_p. rewrite S1 by lia. exact P.
  - rewrite S1 by lia. exact T.
  - intros l Hl. unfold tpgConsT. rewrite E, Q by exact Hl. symmetry. now apply S1.
Qed.
(** ...but not the conserved variables: the Newton iteration that gave the temperature stopped within its tolerance, and the energy of the new run is that of this temperature *)
Definition exTh1 : thtr := mkTh 1 1 (fun _ => 1) (fun _ => 3) (fun _ k => if (k =? 0)%Z then 1000 else if (k =? 8)%Z then 2 else if (k =? 9)%Z then 1 else 0) (fun _ => 100) (fun _ => 1000) (fun _ => 0).
Definition exLeft : cell := mkCell (fun l => if (l =? 0)%Z then 1 else if (l =? 4)%Z then 3 / 2 + 5 / 1000000000 else 0) (fun l => if (l =? 4)%Z then 1 else 0) (fun _ => 0).
Lemma ex1_mixR Y : Y 0%Z = 1 -> mixR exTh1 Y = 1.
Proof. intros H. unfold mixR, accum. cbn [ns exTh1 MW Ru]. change (zrange 0 1) with [0%Z]. cbn [fold_left]. rewrite H. lra. Qed.
Lemma ex1_cp Y T : Y 0%Z = 1 -> T <= 1000 -> tpgCp exTh1 Y T = 2 + T.
Proof.
  intros H HT. unfold tpgCp, accum. cbn [ns exTh1]. change (zrange 0 1) with [0%Z]. cbn [fold_left]. rewrite H. unfold nasaCp, nasaM. cbv zeta. cbn [NASA7 exTh1 Z.eqb Ru MW].
  destruct (Rle_dec T 1000); [|contradiction]. cbn. field.
Qed.
Lemma ex1_h Y T : Y 0%Z = 1 -> T <= 1000 -> T <> 0 -> tpgH exTh1 Y T = 2 * T + T ^ 2 / 2.
Proof.
  intros H HT H0. unfold tpgH, accum. cbn [ns exTh1]. change (zrange 0 1) with [0%Z]. cbn [fold_left]. rewrite H. unfold nasaH, nasaM. cbv zeta. cbn [NASA7 exTh1 Z.eqb Ru MW].
  destruct (Rle_dec T 1000); [|contradiction]. cbn. field. exact H0.
Qed.
Lemma ex1_consY Q : consY 1 Q 0%Z = 1.
Proof. unfold consY, composition, accum, lastY. cbv zeta. change (zrange 0 (1 - 1)) with (@nil Z). cbn [fold_left]. destruct (Rlt_dec 1 0); [lra|]. reflexivity. Qed.
Lemma ex1_primsY q : primsY 1 q 0%Z = 1.
Proof. unfold primsY, composition, accum, lastY. cbv zeta. change (zrange 0 (1 - 1)) with (@nil Z). cbn [fold_left]. destruct (Rlt_dec 1 0); [lra|]. reflexivity. Qed.
Lemma newton_S k step T Tl er : newton (S k) step T Tl (Some er) = if Rlt_dec tol (Rabs er) then match step T with None => None | Some (er', T') => newton k step T' T (Some er') end else Some (T, Tl, er).
Proof. reflexivity. Qed.
Lemma newton_stop k step T Tl er : Rabs er <= tol -> newton k step T Tl (Some er) = Some (T, Tl, er).
Proof. intros H. destruct k; cbn; [reflexivity|]. destruct (Rlt_dec tol (Rabs er)); [lra | reflexivity]. Qed.
Lemma newton_two step e T T' : step T = Some (e, T') -> 1 <= T -> Rabs e <= tol -> newtonRun step T = Some (T', T, e).
Proof.
  intros S HT He. unfold newtonRun, firstGuess. destruct (Rlt_dec T 1); [lra|]. change maxitr with (Datatypes.S 99). rewrite newton_S. destruct (Rlt_dec tol (Rabs (10 ^ 100))) as [_ | X].
  - rewrite S. now apply newton_stop.
  - elim X. assert (P : 1 <= 10 ^ 100) by (apply pow_R1_Rle; lra). generalize dependent (10 ^ 100). intros p _ P. rewrite Rabs_right by lra. unfold tol. lra.
Qed.
Theorem C163_tpg_refuted : exists th c0 c c', goodGas th /\ physicalQ c0 /\ tpgCons th c0 = Some c /\ 1 <= cq c 4%Z /\
  tpgCons th (tpgPrims th c) = Some c' /\ sameq (ns th) c' c /\ cQ c' 4%Z <> cQ c 4%Z.
Proof.
  set (T1 := 1 + 25 / 10000000000).
  assert (G : goodGas exTh1) by (split; [cbn; lia|]; split; [cbn; lra|]; intros; cbn; lra).
  assert (E : exists c, tpgCons exTh1 exLeft = Some c /\ cq c 0%Z = T1 /\ cq c 1%Z = 0 /\ cq c 2%Z = 0 /\ cq c 3%Z = 0 /\ cq c 4%Z = T1 /\ cQ c 4%Z = 3 / 2 + 5 / 1000000000).
  { unfold tpgCons. cbv zeta. change (ns exTh1) with 1%Z. rewrite !consQ_low by lia. set (Y := consY 1 (cQ exLeft)). assert (Y0 : Y 0%Z = 1) by apply ex1_consY.
    cbn [cQ cq exLeft Z.eqb Pos.eqb]. set (e := (3 / 2 + 5 / 1000000000 - halfSq 0 0 0 / 1) / 1).
    assert (Ee : e = 3 / 2 + 5 / 1000000000) by (unfold e, halfSq; field).
    assert (N : newtonRun (tpgStep exTh1 Y e) 1 = Some (T1, 1, 5 / 1000000000)).
    { apply newton_two; [|lra|rewrite Rabs_right by lra; unfold tol; lra].
      unfold tpgStep. cbv zeta. rewrite (ex1_mixR Y Y0), (ex1_h Y 1 Y0), (ex1_cp Y 1 Y0), Ee by lra.
      f_equal. f_equal; [lra|]. replace (- (2 + 1) + 1) with (-2) by lra. unfold T1. lra. }
    rewrite N. eexists. split; [reflexivity|]. cbn [cq cQ]. rewrite (ex1_mixR Y Y0). unfold storeq. cbn [Z.eqb Pos.eqb]. rewrite consQ_low by lia. cbn [cQ exLeft Z.eqb Pos.eqb].
    repeat split; unfold Rdiv; ring. }
  destruct E as (c & Ec & Q0 & Q1 & Q2 & Q3 & Q4 & E4). exists exTh1, exLeft, c.
  assert (V : validFracs (ns exTh1) (fracs c)). { split; [intros n Hn; cbn in Hn; lia|]. unfold sumZ. cbn [ns exTh1]. change (zrange 0 (1 - 1)) with (@nil Z). cbn. lra. }
  destruct (C88_tpg_round_trip exTh1 c G V) as (c' & E' & S & SQ & _); [unfold c_p; rewrite Q0; unfold T1; lra | rewrite Q4; unfold T1; lra|].
  exists c'. split; [exact G|]. split; [split; cbn; lra|]. split; [exact Ec|]. split; [rewrite Q4; unfold T1; lra|]. split; [exact E'|]. split; [exact S|].
  rewrite SQ by (cbn; lia). rewrite E4. unfold tpgPrims. cbv zeta. cbn [cQ]. unfold storeQ. cbn [Z.eqb Pos.eqb].
  rewrite !clipPrims_id by exact V. change (ns exTh1) with 1%Z. set (Y := primsY 1 (cq c)). assert (Y0 : Y 0%Z = 1) by apply ex1_primsY.
  rewrite Q0, Q1, Q2, Q3, Q4, (ex1_mixR Y Y0), (ex1_h Y T1 Y0) by (unfold T1; lra). unfold halfSq, T1. lra.
Qed.

(** ** Boundary data that vary in time *)
(** A run of step size dt > 0 has come to time t; [r] is its solver, [p] what a restart gives back of the flow field.  With every explicit or split integrator the first right-hand side of the
    restarted run sees boundary data of time 0, that of the run going on data of the last step... *)
Theorem C163_inlet_time_refuted : forall name step, getIntegrator allIn (recEnv (fun b _ => b)) name = Some step -> name <> "dualTime"%string ->
  forall s dt, 0 < dt -> 0 < tme s -> let r := step dt s in let r' := bootedSolver (recEnv (fun b _ => b)) (mkPhys (pQ (ph r)) (pq (ph r)) (0, [])) (fun _ => 0) (nrt r) (tme r) in
  (** the same counters, the same flow field... *)
  nrt r' = nrt r /\ tme r' = tme r /\ pQ (ph r') = pQ (ph r) /\
  (** ...boundary data of the last step, and of time zero... *)
  tme s <= fst (pA (ph r)) <= tme r /\ fst (pA (ph r')) = 0 /\
  (** ...and so the next steps differ *)
  forall dt', 0 < dt' -> Q (step dt' r') tt <> Q (step dt' r) tt.
Proof.
  intros name step G N s dt Hdt Ht r r'.
  destruct (step_count allIn (recEnv (fun b _ => b)) name step dt s G) as (Nr & Tr & _). fold r in Nr, Tr.
  assert (Fr : pA (ph r) = (leaves name (tme s) dt, snd (pA (ph s)) ++ seen name (fst (pA (ph s))) (tme s) dt)) by (apply (record_step (fun b _ => b)); assumption).
  assert (L : tme s <= leaves name (tme s) dt <= tme s + dt) by (unfold leaves; repeat (match goal with |- context[if ?b then _ else _] => destruct b end); lra).
  split; [reflexivity|]. split; [reflexivity|]. split; [reflexivity|]. rewrite Fr, Tr. cbn [fst]. split; [exact L|]. split; [reflexivity|].
  intros dt' H'. assert (D : forall a b : solver unit (R * list (R * R)), pQ (ph a) = pQ (ph b) -> tme a = tme b -> fst (pA (ph a)) < fst (pA (ph b)) -> Q (step dt' a) tt <> Q (step dt' b) tt).
  { clear - G N H'. intros a b EQ ET HL. unfold Q in *. unfold getIntegrator in G.
    destruct (String.eqb_spec name "rk1"); [injection G as <-|
    destruct (String.eqb_spec name "rk2"); [injection G as <-|
    destruct (String.eqb_spec name "maccormack"); [injection G as <-|
    destruct (String.eqb_spec name "rk3"); [injection G as <-|
    destruct (String.eqb_spec name "rk34"); [injection G as <-|
    destruct (String.eqb_spec name "rk4"); [injection G as <-|
    destruct (String.eqb_spec name "strang"); [injection G as <-|
    destruct (String.eqb_spec name "dualTime"); [contradiction|discriminate]]]]]]]];
    cbn -[Rplus Rdiv Rmult pow]; unfold ApEQxB, AEQB, upd; cbn -[Rplus Rdiv Rmult pow]; unfold Q; cbn -[Rplus Rdiv Rmult pow]; rewrite ?EQ, ?ET; set (x := fst (pA (ph a))) in *; set (y := fst (pA (ph b))) in *;
    assert (dt' * x < dt' * y) by (now apply Rmult_lt_compat_l); intros X; lra. }
  apply D; [reflexivity | reflexivity|]. change (fst (pA (ph r'))) with 0. rewrite Fr. cbn [fst]. lra.
Qed.

(** ** The hypotheses are met: one block of one cell of a binary mixture *)
Definition exState : cell := cpgCons exTh (cpgPrims exTh exPrim).
Definition exDims : dims := mkDims 2 2 2.
Definition exIob : ioBlock := mkIo 0 exDims true 1 (fun _ _ _ _ => 0) (fun _ _ _ l => cq exState l) (fun _ _ _ => 1) [t "A"; t "B"] 7 3.
Definition exSb : sblk := mkSB exIob (fun _ _ _ l => cQ exState l) (fun _ _ _ l => ch exState l).
Example C163_nonvacuous : goodGas exTh /\ goodCp exTh /\ goodNames [t "A"; t "B"] /\ Z.of_nat (List.length [t "A"; t "B"]) = ns exTh /\ spread [[0%Z]] (map (map sb_io) [[exSb]]) /\
  goodDims (io_dims (sb_io exSb)) /\ settledBlock exTh exSb /\ Forall2 setUpFor [exIob] (map sb_io (concat [[exSb]])) /\ (exists i j k, isCell (io_dims (sb_io exSb)) i j k) /\
  after (fun d _ => d) (fun _ s => s) [exSb] 2%R (1 / 2) 2 [exSb] (2 + 1 / 2 + 1 / 2) (1 / 2).
Proof.
  destruct C37_nonvacuous as (A & B & V & P & T). split; [exact A|]. split; [exact B|]. split.
  { split; [discriminate|]. repeat constructor; cbn; intros X; repeat destruct X as [X | X]; try discriminate X; try exact X. }
  split; [reflexivity|]. split; [split; [reflexivity | apply Permutation_refl]|]. split; [unfold goodDims, exSb, exIob, exDims; cbn [sb_io io_dims ni nj nk]; lia|]. split.
  { intros i j k _. exists (cpgPrims exTh exPrim). split; [|repeat split; intros l Hl; reflexivity].
    pose proof (cpgPrims_Q exTh A B exPrim V P T) as X. cbv zeta in X. destruct X as (_ & A0 & A1 & A2 & A3 & A4 & _).
    assert (R0: 0 < gasConstant exTh (fracs exPrim)) by (now apply gas_pos). assert (RC: gasConstant exTh (fracs exPrim) < heatCapacity exTh (fracs exPrim)) by (now apply gas_lt_cp).
    set (R := gasConstant exTh (fracs exPrim)) in *. set (cp := heatCapacity exTh (fracs exPrim)) in *. clearbody R cp.
    assert (Rr: 0 < c_p exPrim / (R * cq exPrim 4%Z)) by (apply Rdiv_lt_0_compat; [exact P | apply Rmult_lt_0_compat; assumption]).
    split; [now rewrite A0|]. rewrite A0, A1, A2, A3, A4. set (rho := c_p exPrim / (R * cq exPrim 4%Z)) in *. clearbody rho.
    unfold kinetic, dot3, vel, vx, vy, vz; cbn [fst snd]. assert (0 < rho * ((cp - R) * cq exPrim 4%Z)) by (apply Rmult_lt_0_compat; [exact Rr | apply Rmult_lt_0_compat; lra]).
    match goal with |- ?l < _ => replace l with (rho * ((c_u exPrim * c_u exPrim + c_v exPrim * c_v exPrim + c_w exPrim * c_w exPrim) / 2)) by (field; lra) end. lra. }
  split; [constructor; [|constructor]; split; [reflexivity|]; split; [reflexivity|]; split; [reflexivity|]; split; [reflexivity|]; cbn; lia|]. split; [exists 0%Z, 0%Z, 0%Z; unfold isCell, exSb, exIob, exDims; cbn [sb_io io_dims ni nj nk]; lia|].
  exact (afterS _ (fun d _ => d) (fun _ s => s) [exSb] 2 (1 / 2) 1 [exSb] (2 + 1 / 2) (1 / 2) (afterS _ (fun d _ => d) (fun _ s => s) [exSb] 2 (1 / 2) 0 [exSb] 2 (1 / 2) (after0 _ _ _ _ _ _))).
Qed.
Print Assumptions C163_run_continues. Print Assumptions C163_state_restored. Print Assumptions C163_restarted_run. Print Assumptions C163_tpg_primitives. Print Assumptions C163_tpg_refuted. Print Assumptions C163_inlet_time_refuted.
