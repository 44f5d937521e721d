(** Lemmas for restarted runs: one cell of a calorically perfect gas. *)
From Coq Require Import Reals ZArith List Bool Lia Lra.
From Verif Require Import M_Topology M_Halo M_Grid M_Metrics M_Procs M_Io S_Io M_Flux M_FluxKernels S_Metrics S_FluxKernels S_Sum L_Sum M_Thermo S_Thermo L_Thermo P_Thermo M_Restarted S_Restarted.
Import ListNotations.
Open Scope R_scope.

Lemma cell_restored th c c1 : goodGas th -> goodCp th -> settled th c -> sameq (ns th) c1 c ->
  let c2 := cpgCons th (cpgPrims th c1) in sameq (ns th) c2 c /\ sameQ (ns th) c2 c /\ sameh (ns th) c2 c.
Proof.
  intros HG HC (c0 & (Hr & HE) & Sq & SQ & Sh) S1 c2.
  set (y := consY (ns th) (cQ c0)). destruct (consY_valid (ns th) (cQ c0) Hr) as (V & EY). fold y in V, EY.
  pose proof (cpgCons_q th c0 y EY) as B. cbv zeta in B. set (d := cpgCons th c0) in *.
  set (rho := cQ c0 0%Z) in *. set (R := gasConstant th y) in *. set (cp := heatCapacity th y) in *.
  set (e := (cQ c0 4%Z - halfSq (cQ c0 1%Z) (cQ c0 2%Z) (cQ c0 3%Z) / rho) / rho) in *. set (T := e / (cp - R)) in *.
  assert (R0: 0 < R) by (now apply gas_pos). assert (RC: R < cp) by (now apply gas_lt_cp).
  assert (He: 0 < e). { unfold e. apply Rdiv_lt_0_compat; [|exact Hr]. unfold halfSq.
    replace (5/10 * (cQ c0 1%Z ^ 2 + cQ c0 2%Z ^ 2 + cQ c0 3%Z ^ 2) / rho) with ((cQ c0 1%Z ^ 2 + cQ c0 2%Z ^ 2 + cQ c0 3%Z ^ 2) / (2 * rho)) by (field; lra). lra. }
  assert (HT: 0 < T) by (unfold T; apply Rdiv_lt_0_compat; lra).
  assert (EeT: (cp - R) * T = e) by (unfold T; field; lra).
  destruct B as (B0 & B1 & B2 & B3 & B4 & B5 & B6 & G0 & G1 & G2 & G3 & G4 & G5).
  assert (N: (1 <= ns th)%Z) by apply HG.
  assert (q1: forall l, (0 <= l < 5 + ns th - 1)%Z -> cq c1 l = cq d l) by (intros l Hl; rewrite S1, Sq by exact Hl; reflexivity).
  assert (F: forall n, (0 <= n < ns th - 1)%Z -> fracs c1 n = y n) by (intros n Hn; unfold fracs; rewrite q1, B5 by lia; reflexivity).
  assert (Vc: validFracs (ns th) (fracs c1)) by (eapply validFracs_ext; [|exact V]; intros; symmetry; now apply F).
  assert (Hp': 0 < c_p c1) by (unfold c_p; rewrite q1, B0 by lia; apply Rmult_lt_0_compat; nra).
  assert (HT': 0 < cq c1 4%Z) by (now rewrite q1, B4 by lia).
  assert (Eg: gasConstant th (fracs c1) = R). { unfold R, gasConstant. f_equal. apply sumZ_ext. intros. f_equal. apply withLast_ext; auto. }
  assert (Ec: heatCapacity th (fracs c1) = cp). { unfold cp, heatCapacity. apply sumZ_ext. intros. f_equal. apply withLast_ext; auto. }
  pose proof (cpgPrims_Q th HG HC c1 Vc Hp' HT') as A. cbv zeta in A. rewrite Eg, Ec in A.
  unfold c_p, c_u, c_v, c_w in A. rewrite !q1 in A by lia. rewrite B0, B1, B2, B3, B4 in A. replace (rho * R * T / (R * T)) with rho in A by (field; lra).
  destruct A as (Aq & A0 & A1 & A2 & A3 & A4 & A5 & H0 & H1 & H2 & H3 & H4 & H5).
  destruct (C37_prims_cons th c1 HG HC Vc Hp' HT') as (Rq & RQ & Rh). fold c2 in Rq, RQ, Rh.
  assert (DQ: forall l, cQ d l = consQ (ns th) (cQ c0) l) by reflexivity.
  split; [|split].
  - intros l Hl. rewrite Rq, S1 by exact Hl. reflexivity.
  - intros l Hl. rewrite RQ, SQ by exact Hl. apply (index_cases l (ns th - 1) (fun l => cQ (cpgPrims th c1) l = cQ d l)); [lia| | | | | |].
    + rewrite A0, B6 by lia. reflexivity.
    + rewrite A1, B6 by lia. field. lra.
    + rewrite A2, B6 by lia. field. lra.
    + rewrite A3, B6 by lia. field. lra.
    + rewrite A4, B6, EeT by lia. unfold e, kinetic, dot3, vel, c_u, c_v, c_w, vx, vy, vz, halfSq; cbn [fst snd]. rewrite !q1 by lia. rewrite B1, B2, B3. field; lra.
    + intros n Hn. rewrite A5, F, DQ, consQ_species by auto. fold y rho. ring.
  - intros l Hl. rewrite Rh, Sh by exact Hl. apply (index_cases l (ns th) (fun l => ch (cpgPrims th c1) l = ch d l)); [lia| | | | | |].
    + now rewrite G0, H0.
    + now rewrite G1, H1.
    + rewrite G2, H2, <- EeT. field. lra.
    + now rewrite G3, H3.
    + now rewrite G4, H4, EeT.
    + intros n Hn. now rewrite G5, H5.
Qed.
