(** C163 for the thermally perfect gas: how much a restart changes. *)
From Coq Require Import Reals ZArith NArith String Ascii List Bool Lia Lra Permutation.
From Verif Require Import M_Topology M_Halo M_Grid M_Metrics M_Procs M_Io S_Io L_Io L_Io2 P_Io P_Io2 M_Flux M_FluxKernels S_Metrics S_FluxKernels S_Sum L_Sum M_Thermo S_Thermo L_Thermo P_Thermo P_Tpg
  M_Restarted S_Restarted L_Restarted2 P_Restarted P_Restarted2 S_Restarted2.
Import ListNotations.
Open Scope R_scope.

Lemma tpg_cell_restored th c c1 : goodGas th -> settledTpg th c -> sameq (ns th) c1 c -> almostSame (ns th) c (tpgConsT th (tpgPrims th c1)).
Proof.
  intros HG (V & Rp & T1 & P & M1 & M2 & M3 & PY & En) S. assert (N: (1 <= ns th)%Z) by apply HG.
  assert (Ef : forall n, (0 <= n < ns th - 1)%Z -> fracs c1 n = fracs c n) by (intros n Hn; unfold fracs; apply S; lia).
  assert (V1 : validFracs (ns th) (fracs c1)) by (eapply validFracs_ext; [|exact V]; intros; symmetry; now apply Ef).
  set (R := gasConstant th (fracs c)) in *. assert (R0 : 0 < R) by (now apply gas_pos).
  assert (E0 : cq c1 0%Z = c_p c) by (rewrite S by lia; reflexivity). assert (E4 : cq c1 4%Z = cq c 4%Z) by (apply S; lia).
  assert (Pp : 0 < c_p c) by (rewrite P; apply Rmult_lt_0_compat; [now apply Rmult_lt_0_compat | lra]).
  destruct (C88_tpg_round_trip th c1 HG V1) as (c2 & Ec & Sq & SQ & _); [unfold c_p; now rewrite E0 | now rewrite E4|].
  unfold tpgConsT. rewrite Ec. set (T := cq c 4%Z) in *.
  set (Y := primsY (ns th) (cq c1)).
  assert (WY : forall n, (0 <= n < ns th)%Z -> Y n = withLast (ns th) (fracs c) n).
  { intros n Hn. destruct (primsY_valid (ns th) (cq c1)) as (_ & W). unfold Y. rewrite W by auto. apply withLast_ext; auto. intros m Hm. rewrite <- Ef by auto. now apply primsY_id. }
  assert (ER : mixR th Y = R) by (now apply mixR_gas).
  assert (EH : tpgH th Y T = mixtureH th (fracs c) T) by (apply tpgH_spec; auto; lra).
  set (rho := c_rho c) in *. assert (Rh : c_p c / (R * T) = rho) by (rewrite P; field; split; lra).
  assert (C2 : forall l, (0 <= l < 5 + ns th - 1)%Z -> cQ c2 l = storeQ (ns th) (cQ c1) rho (c_u c) (c_v c) (c_w c) (rho * internalEnergy th (fracs c) T + halfSq (c_u c) (c_v c) (c_w c) * rho) Y l).
  { intros l Hl. rewrite SQ by auto. unfold tpgPrims. cbv zeta. cbn [cQ]. fold Y. rewrite !clipPrims_id by exact V1. rewrite ER, E0, E4. fold T. rewrite Rh, EH.
    rewrite (S 1%Z), (S 2%Z), (S 3%Z) by lia. fold (c_u c) (c_v c) (c_w c). unfold internalEnergy. fold R.
    replace (c_p c / rho) with (R * T) by (rewrite P; field; lra). reflexivity. }
  split; [|split].
  - intros l Hl. rewrite Sq by auto. now apply S.
  - intros l Hl L4. rewrite C2 by auto. destruct (Z_lt_le_dec l 5) as [H|H].
    + assert (l = 0 \/ l = 1 \/ l = 2 \/ l = 3)%Z as [-> | [-> | [-> | ->]]] by lia; unfold storeQ; cbn [Z.eqb Pos.eqb]; [reflexivity | now rewrite M1 | now rewrite M2 | now rewrite M3].
    + replace l with (5 + (l - 5))%Z by lia. rewrite storeQ_species by lia. rewrite WY by lia. fold (partials c (l - 5)). rewrite PY by lia.
      unfold withLast. destruct (Z.eqb_spec (l - 5) (ns th - 1)); [lia|]. ring.
  - unfold c_E at 1. rewrite C2 by lia. unfold storeQ; cbn [Z.eqb Pos.eqb].
    replace (rho * internalEnergy th (fracs c) T + halfSq (c_u c) (c_v c) (c_w c) * rho - c_E c) with (rho * (internalEnergy th (fracs c) T - heldEnergy c)).
    2:{ unfold heldEnergy. fold rho. rewrite M1, M2, M3. unfold halfSq. field. lra. }
    rewrite Rabs_mult, (Rabs_right rho) by lra. unfold Rdiv. apply Rmult_le_compat_l; [now apply Rlt_le | exact En].
Qed.

(** C163, thermally perfect gas: a restart gives back all primitives and all conserved variables but the energy, and the energy within 1e-8 J/kg; with the iteration number and time *)
Theorem C163_tpg_state_restored : forall th species lump anim n t procs ranks order rs d0, goodGas th ->
  goodNames species -> Z.of_nat (List.length species) = ns th ->
  spread procs (map (map sb_io) ranks) -> Permutation order (concat ranks) ->
  (forall b, In b (concat ranks) -> goodDims (io_dims (sb_io b)) /\ io_species (sb_io b) = species /\ io_solver (sb_io b) = true) ->
  Forall2 setUpFor rs (map sb_io (concat ranks)) ->
  (forall b i j k, In b (concat ranks) -> isCell (io_dims (sb_io b)) i j k -> settledTpg th (cellAt b i j k)) ->
  exists d bs, writeRun lump anim n t procs ranks species order d0 = Some d /\ bootstrap (tpgPrims th) (tpgConsT th) lump anim n d rs = Some bs /\
    Forall2 (fun b b' => io_num (sb_io b) = io_num (sb_io b') /\ io_dims (sb_io b) = io_dims (sb_io b') /\ io_nrt (sb_io b') = n /\ io_tme (sb_io b') = t /\
                         forall i j k, isCell (io_dims (sb_io b)) i j k -> almostSame (ns th) (cellAt b i j k) (cellAt b' i j k)) (concat ranks) bs.
Proof.
  intros th species lump anim n t procs ranks order rs d0 HG GN Ns Sp Pe G Su Se.
  apply (boot_spec (tpgPrims th) (tpgConsT th) (almostSame (ns th)) species (ns th) lump anim n t procs ranks order rs d0 GN Ns Sp Pe G Su).
  intros b i j k I C c1 S1. apply tpg_cell_restored; auto.
Qed.

(** ...and such cells are what the conserved branch leaves, where its iteration met the tolerance and the heat capacity at constant volume is positive and less than doubles over its last step *)
Theorem C163_tpg_settled : forall th c0 c, 0 < c_rho c0 -> tpgCons th c0 = Some c -> 1 <= cq c 4%Z ->
  exists Tl, (Tl <> 0 -> cq c 4%Z = Tl - (internalEnergy th (fracs c) Tl - heldEnergy c) / (mixtureCp th (fracs c) Tl - gasConstant th (fracs c))) /\
    (Tl <> 0 -> Rabs (internalEnergy th (fracs c) Tl - heldEnergy c) <= / 10 ^ 8 ->
     (forall x, Rmin (cq c 4%Z) Tl <= x <= Rmax (cq c 4%Z) Tl -> offBreak th x /\
        0 < mixtureCp th (fracs c) x - gasConstant th (fracs c) <= 2 * (mixtureCp th (fracs c) Tl - gasConstant th (fracs c))) -> settledTpg th c).
Proof.
  intros th c0 c Hr E T1. destruct (C40_newton_step th c0 c Hr E) as (Tl & A & P & Rh & _). exists Tl.
  assert (Em : forall l, (0 <= l < 5)%Z -> cQ c l = cQ c0 l).
  { intros l Hl. unfold tpgCons in E. cbv zeta in E. destruct newtonRun as [[[T' Tl'] er]|]; [|discriminate]. injection E as <-. cbn [cQ]. apply consQ_low. lia. }
  assert (He : heldEnergy c = heldEnergy c0) by (unfold heldEnergy, c_E, c_rho; rewrite !Em by lia; reflexivity).
  rewrite He. split; [exact A|]. intros N0 Tol Cv. destruct (consY_valid (ns th) (cQ c0) Hr) as (V & W).
  assert (Q : c_u c = cQ c0 1%Z / cQ c0 0%Z /\ c_v c = cQ c0 2%Z / cQ c0 0%Z /\ c_w c = cQ c0 3%Z / cQ c0 0%Z /\
              (forall n, (0 <= n < ns th - 1)%Z -> fracs c n = consY (ns th) (cQ c0) n) /\ (forall n, (0 <= n < ns th - 1)%Z -> partials c n = consY (ns th) (cQ c0) n * cQ c0 0%Z)).
  { clear - E Hr. unfold tpgCons in E. cbv zeta in E. destruct newtonRun as [[[T' Tl'] er]|]; [|discriminate]. injection E as <-. unfold c_u, c_v, c_w, fracs, partials. cbn [cq cQ].
    unfold storeq at 1 2 3. cbn [Z.eqb Pos.eqb]. rewrite !consQ_low by lia. split; [reflexivity|]. split; [reflexivity|]. split; [reflexivity|].
    split; intros n Hn; [now rewrite storeq_species | now apply consQ_species]. }
  destruct Q as (Qu & Qv & Qw & Qf & Qp). assert (R0 : c_rho c = cQ c0 0%Z) by (unfold c_rho; apply Em; lia). unfold c_rho in Hr.
  split; [|split; [|split; [|split; [|split; [|split; [|split; [|split]]]]]]].
  - eapply validFracs_ext; [|exact V]. intros; symmetry; now apply Qf.
  - now rewrite R0.
  - exact T1.
  - exact P.
  - rewrite Qu, R0, Em by lia. field. lra.
  - rewrite Qv, R0, Em by lia. field. lra.
  - rewrite Qw, R0, Em by lia. field. lra.
  - intros n Hn. rewrite Qf, Qp, R0 by auto. ring.
  - rewrite He. apply C40_temperature_reproduces_energy with Tl; [now apply A | exact Tol | exact Cv].
Qed.
(** Non-vacuity: a cell at rest at one kelvin whose energy is off by half the tolerance *)
Definition exSettled : cell := mkCell (fun l => if (l =? 0)%Z then 1 else if (l =? 4)%Z then 3 / 2 + 5 / 1000000000 else 0) (fun l => if (l =? 0)%Z then 1 else if (l =? 4)%Z then 1 else 0) (fun _ => 0).
Example C163_tpg_nonvacuous : goodGas exTh1 /\ settledTpg exTh1 exSettled /\ heldEnergy exSettled <> internalEnergy exTh1 (fracs exSettled) (cq exSettled 4%Z).
Proof.
  assert (V : validFracs (ns exTh1) (fracs exSettled)) by (split; [intros n Hn; cbn in Hn; lia|]; unfold sumZ; cbn [ns exTh1]; change (zrange 0 (1 - 1)) with (@nil Z); cbn; lra).
  assert (W : forall g, sumZ 0 (ns exTh1) (fun n => withLast (ns exTh1) (fracs exSettled) n * g n) = g 0%Z).
  { intros g. unfold sumZ. cbn [ns exTh1]. change (zrange 0 1) with [0%Z]. cbn [map fold_right]. unfold withLast. cbn [Z.eqb Z.sub Z.add Z.opp Pos.eqb Z.pos_sub]. unfold sumZ. change (zrange 0 0) with (@nil Z). cbn [map fold_right]. lra. }
  assert (Rg : gasConstant exTh1 (fracs exSettled) = 1).
  { unfold gasConstant. rewrite (sumZ_ext 0 (ns exTh1) _ (fun n => withLast (ns exTh1) (fracs exSettled) n * (1 / MW exTh1 n))) by (intros; unfold Rdiv; ring). rewrite W. cbn [Ru MW exTh1]. lra. }
  assert (H : internalEnergy exTh1 (fracs exSettled) 1 = 3 / 2).
  { unfold internalEnergy, mixtureH. rewrite W, Rg. unfold speciesH, nasaRange. cbv zeta beta. cbn [NASA7 exTh1 Z.eqb Pos.eqb Ru MW]. destruct (Rle_dec 1 1000) as [_|N]; [|elim N; lra]. cbn. lra. }
  assert (E : heldEnergy exSettled = 3 / 2 + 5 / 1000000000) by (unfold heldEnergy, c_E, c_rho, exSettled; cbn [cQ Z.eqb Pos.eqb]; lra).
  split; [split; [cbn; lia|]; split; [cbn; lra|]; intros; cbn; lra|]. change (cq exSettled 4%Z) with 1. split; [|rewrite E, H; lra].
  unfold settledTpg. change (cq exSettled 4%Z) with 1. rewrite Rg, H, E. split; [exact V|]. unfold c_rho, c_p, c_u, c_v, c_w, exSettled. cbn [cQ cq Z.eqb Pos.eqb].
  split; [lra|]. split; [lra|]. split; [lra|]. split; [lra|]. split; [lra|]. split; [lra|]. split; [intros n Hn; cbn in Hn; lia|]. rewrite Rabs_left by lra. lra.
Qed.
Print Assumptions C163_tpg_state_restored.
Print Assumptions C163_tpg_settled.
