(** AUSM and HLLC consistency, symmetry of the kernels. *)
From Coq Require Import Reals ZArith List Bool Lia Lra.
From Verif Require Import M_Topology S_Topology M_Halo S_Halo M_Grid M_Metrics S_Metrics M_Flux M_FluxKernels S_FluxKernels L_Grid3 L_Vec L_FluxK1.
Import ListNotations.
Open Scope R_scope.

Section C.
Variables (g : fgeo) (st : Z -> cell) (c : cell) (l : Z).
Hypotheses (HU : uniform st c) (HC : coherent c) (Hl : (0 <= l)%Z) (HF : faceVectors g) (Hc : 0 < c_c c).

Lemma hllcFlux_value old L Rs : isState c L -> isState c Rs ->
  let U := dot3 (vel c) (gn g) in
  hllcFlux old g L Rs l =
    (if Rle_dec (c_c c) U then eulerFlux c (gs g) l
     else if Rle_dec 0 U then eulerFlux c (gs g) l - (U - c_c c) * c_rho c * gS g * tangential g c l
     else if Rle_dec 0 (U + c_c c) then eulerFlux c (gs g) l - (U + c_c c) * c_rho c * gS g * tangential g c l
     else eulerFlux c (gs g) l).
Proof.
  intros HL HR U. unfold hllcFlux. cbv zeta.
  assert (FL: forall s, isState c s -> fn g s = U /\ f_c s = c_c c).
  { intros s (A & B & D & E & _ & _ & X & _). unfold fn, U. rewrite B, D, E. split; auto. unfold vel. vcomp. ring. }
  rewrite (Sstar_consistent g c HC L Rs HL HR) by lra. fold U.
  unfold hllcSL, hllcSR. destruct (FL L HL) as [-> ->], (FL Rs HR) as [-> ->].
  destruct (Rle_dec 0 (U - c_c c)), (Rle_dec (c_c c) U); try lra; [now apply sideFlux_consistent|].
  destruct (Rle_dec (U - c_c c) 0); [|lra]. destruct (Rle_dec 0 U).
  - apply starFlux_value; auto. fold U. lra.
  - destruct (Rle_dec 0 (U + c_c c)).
    + destruct (Rle_dec U 0); [|lra]. apply starFlux_value; auto. fold U. lra.
    + destruct (Rle_dec (U + c_c c) 0); [|lra]. now apply sideFlux_consistent.
Qed.
Lemma ausm_consistent : ausmPlusUp g st l = eulerFlux c (gs g) l.
Proof.
  unfold ausmPlusUp. rewrite !(stm st c HU) by lia. cbv zeta.
  replace (vx (gn g) * c_u c + vy (gn g) * c_v c + vz (gn g) * c_w c) with (dot3 (vel c) (gn g)) by (unfold vel; vcomp; ring).
  assert (EU: dot3 (vel c) (gn g) * gS g = dot3 (vel c) (gs g)).
  { unfold vel. vcomp. rewrite (sx g HF), (sy g HF), (sz g HF). ring. }
  set (U := dot3 (vel c) (gn g)) in *. clearbody U. unfold ausmCore. cbv zeta. rewrite !Rminus_eq_0.
  replace (5/10 * (c_c c + c_c c)) with (c_c c) by field. set (a := c_c c) in *.
  set (M := U / a). assert (EM: U = a * M) by (unfold M; field; lra).
  set (ms := Rmax (1 - 1 * ((U * U + U * U) / (2 * (a * a)))) 0).
  set (Mo := sqrt (Rmin 1 (Rmax ((U * U + U * U) / (2 * (a * a))) (1 / 10)))).
  assert (E1: (if Rle_dec 1 (Rabs M) then 5 / 10 * (M + Rabs M) else 25 / 100 * ((M + 1) * (M + 1)) * (1 - 16 * (1 / 8) * (- (25 / 100) * ((M - 1) * (M - 1))))) +
     (if Rle_dec 1 (Rabs M) then 5 / 10 * (M - Rabs M) else - (25 / 100) * ((M - 1) * (M - 1)) * (1 + 16 * (1 / 8) * (25 / 100 * ((M + 1) * (M + 1))))) = M).
  { destruct (Rle_dec 1 (Rabs M)); field. }
  rewrite E1.
  assert (E2: forall x y, M - x * ms * 0 / y = M) by (intros; unfold Rdiv; ring). rewrite E2.
  assert (E3: (if Rlt_dec 0 M then a * M * c_rho c else a * M * c_rho c) = U * c_rho c) by (rewrite EM; destruct (Rlt_dec 0 M); ring).
  rewrite E3.
  set (al := 3 / 16 * (-4 + 5 * (Mo * (2 - Mo) * (Mo * (2 - Mo))))). 
  set (pp := if Rle_dec 1 (Rabs M) then 1 / M * (5 / 10 * (M + Rabs M)) else _).
  set (pm := if Rle_dec 1 (Rabs M) then 1 / M * (5 / 10 * (M - Rabs M)) else _).
  assert (E4: pp + pm = 1).
  { unfold pp, pm. clearbody al. destruct (Rle_dec 1 (Rabs M)) as [X|X]; [|field]. assert (M <> 0) by (intros ->; rewrite Rabs_R0 in X; lra). field. auto. }
  assert (E5: pp * c_p c + pm * c_p c - 75/100 * pp * pm * (c_rho c + c_rho c) * (Mo * (2 - Mo) * a) * 0 = c_p c).
  { replace pm with (1 - pp) by lra. ring. }
  rewrite E5. destruct HC as (Hr & _ & _ & _ & _ & HY).
  assert (E6: (if Rlt_dec 0 (U * c_rho c) then c else c) = c) by (destruct (Rlt_dec 0 (U * c_rho c)); auto). rewrite !E6.
  lcases l Hl; [| | | | |rewrite comp_ge5, euler_ge5, HY, <- EU by auto; ring];
  cbn [comp Z.eqb Pos.eqb eulerFlux]; cbv zeta; rewrite <- EU; try ring. field. auto.
Qed.
End C.

Lemma fn_rev g s : fn (reverseFace g) s = - fn g s.
Proof. unfold fn, reverseFace. cbn [gn]. unfold opp. vcomp. ring. Qed.
Ltac revgeo g := unfold reverseFace; cbn [gs gn gS]; unfold opp; autorewrite with vec.

Lemma keepLike_rev I1 I2 g A B l : (forall C U, I1 (-C) (-U) = - I2 C U) -> (0 <= l)%Z ->
  keepLike I1 (reverseFace g) B A l = - keepLike I2 g A B l.
Proof.
  intros HI Hl. unfold keepLike. revgeo g. cbv zeta.
  set (U := vx (gs g) * (5 / 10 * (c_u B + c_u A)) + vy (gs g) * (5 / 10 * (c_v B + c_v A)) + vz (gs g) * (5 / 10 * (c_w B + c_w A))).
  replace (- vx (gs g) * (5 / 10 * (c_u A + c_u B)) + - vy (gs g) * (5 / 10 * (c_v A + c_v B)) + - vz (gs g) * (5 / 10 * (c_w A + c_w B))) with (- U) by (unfold U; ring).
  replace (5 / 10 * (c_rho A + c_rho B) * - U) with (- (5 / 10 * (c_rho B + c_rho A) * U)) by ring. rewrite HI.
  clearbody U. lcases l Hl; [| | | | |rewrite !comp_ge5 by auto; ring]; cbn [comp Z.eqb Pos.eqb]; ring.
Qed.
Lemma KEEP_rev : antisymmetric KEEP.
Proof. intros g st l Hl. unfold KEEP, reverseCells. cbn [Z.sub Z.add Z.opp Z.pos_sub]. apply keepLike_rev; auto. intros; ring. Qed.
Lemma KEEPpe_rev : antisymmetric KEEPpe.
Proof. intros g st l Hl. unfold KEEPpe, reverseCells. cbn [Z.sub Z.add Z.opp Z.pos_sub]. apply keepLike_rev; auto. intros; ring. Qed.
Lemma KEPaEC_rev : antisymmetric KEPaEC.
Proof. intros g st l Hl. unfold KEPaEC, reverseCells. cbn [Z.sub Z.add Z.opp Z.pos_sub]. apply keepLike_rev; auto. intros. cbv zeta. 
  rewrite (Rplus_comm (c_re (st (-1)%Z) / c_rho (st (-1)%Z))). unfold Rdiv. ring. Qed.
Lemma central_rev : antisymmetric centralDifference.
Proof. intros g st l Hl. unfold centralDifference, reverseCells. cbn [Z.sub Z.add Z.opp Z.pos_sub]. revgeo g. cbv zeta.
  lcases l Hl; [| | | | |rewrite !comp_ge5 by auto; ring]; cbn [comp Z.eqb Pos.eqb]; ring. Qed.
Lemma fourth_rev : antisymmetric fourthOrderKEEP.
Proof. intros g st l Hl. unfold fourthOrderKEEP. revgeo g. cbv zeta. rewrite !keepSum_eq. unfold reverseCells.
  change (-1 - 0)%Z with (-1)%Z. change (-1 - -1)%Z with 0%Z. change (-1 - -2)%Z with 1%Z. change (-1 - 1)%Z with (-2)%Z.
  lcases l Hl; [| | | | |rewrite !comp_ge5, !keepSum_eq by auto; change (-1 - 0)%Z with (-1)%Z; change (-1 - -1)%Z with 0%Z; change (-1 - -2)%Z with 1%Z; change (-1 - 1)%Z with (-2)%Z; ring];
  cbn [comp Z.eqb Pos.eqb]; unfold Rdiv; ring. Qed.
Lemma rusanovFlux_rev lam g A B l : (0 <= l)%Z -> rusanovFlux lam (reverseFace g) B A l = - rusanovFlux lam g A B l.
Proof.
  intros Hl. unfold rusanovFlux. rewrite !fn_rev. unfold reverseFace. cbn [gs gS]. unfold opp. autorewrite with vec. cbv zeta.
  lcases l Hl; [| | | | |rewrite !comp_ge5 by auto; ring]; cbn [comp Z.eqb Pos.eqb]; ring.
Qed.
Lemma rusanov_rev : antisymmetric rusanov.
Proof. intros g st l Hl. unfold rusanov, reverseCells. cbn [Z.sub Z.add Z.opp Z.pos_sub]. unfold rusanovLam. rewrite !fn_rev, !Rabs_Ropp, Rmax_comm. now apply rusanovFlux_rev. Qed.
Lemma ausm_rev : forall g st l, (0 <= l)%Z -> c_c (st 0%Z) + c_c (st (-1)%Z) <> 0 -> 0 < c_rho (st 0%Z) -> 0 < c_rho (st (-1)%Z) -> 0 < c_c (st 0%Z) + c_c (st (-1)%Z) ->
  ausmPlusUp (reverseFace g) (reverseCells st) l = - ausmPlusUp g st l.
Proof.
  intros g st l Hl Ha P1 P2 P3. unfold ausmPlusUp, reverseCells. cbn [Z.sub Z.add Z.opp Z.pos_sub]. revgeo g. cbv zeta.
  set (A := st (-1)%Z) in *. set (B := st 0%Z) in *. clearbody A B.
  set (UB := vx (gn g) * c_u B + vy (gn g) * c_v B + vz (gn g) * c_w B).
  set (UA := vx (gn g) * c_u A + vy (gn g) * c_v A + vz (gn g) * c_w A).
  replace (- vx (gn g) * c_u A + - vy (gn g) * c_v A + - vz (gn g) * c_w A) with (- UA) by (unfold UA; ring).
  replace (- vx (gn g) * c_u B + - vy (gn g) * c_v B + - vz (gn g) * c_w B) with (- UB) by (unfold UB; ring).
  clearbody UA UB. generalize (gS g) (vx (gs g)) (vy (gs g)) (vz (gs g)). clear g. intros S s1 s2 s3. unfold ausmCore. cbv zeta.
  rewrite (Rplus_comm (c_c A) (c_c B)). set (a := 5 / 10 * (c_c B + c_c A)).
  assert (Pa: 0 < a) by (unfold a; lra).
  replace (- UB / a) with (- (UB / a)) by (unfold Rdiv; ring). replace (- UA / a) with (- (UA / a)) by (unfold Rdiv; ring).
  set (ML := UA / a). set (MR := UB / a). rewrite !Rabs_Ropp.
  replace (- UA * - UA + - UB * - UB) with (UB * UB + UA * UA) by ring.
  set (mb := (UB * UB + UA * UA) / (2 * (a * a))). set (Mo := sqrt (Rmin 1 (Rmax mb (1/10)))). set (fa := Mo * (2 - Mo)).
  rewrite (Rplus_comm (c_rho A) (c_rho B)). set (r12 := 5 / 10 * (c_rho B + c_rho A) * (a * a)).
  set (ms := Rmax (1 - 1 * mb) 0).
  set (P4 := if Rle_dec 1 (Rabs ML) then 5 / 10 * (ML + Rabs ML) else 25 / 100 * ((ML + 1) * (ML + 1)) * (1 - 16 * (1 / 8) * (- (25 / 100) * ((MR - 1) * (MR - 1))))).
  set (M4 := if Rle_dec 1 (Rabs MR) then 5 / 10 * (MR - Rabs MR) else - (25 / 100) * ((MR - 1) * (MR - 1)) * (1 + 16 * (1 / 8) * (25 / 100 * ((ML + 1) * (ML + 1))))).
  assert (Q4: (if Rle_dec 1 (Rabs MR) then 5 / 10 * (- MR + Rabs MR) else 25 / 100 * ((- MR + 1) * (- MR + 1)) * (1 - 16 * (1 / 8) * (- (25 / 100) * ((- ML - 1) * (- ML - 1))))) = - M4)
    by (unfold M4; destruct (Rle_dec 1 (Rabs MR)); field).
  assert (N4: (if Rle_dec 1 (Rabs ML) then 5 / 10 * (- ML - Rabs ML) else - (25 / 100) * ((- ML - 1) * (- ML - 1)) * (1 + 16 * (1 / 8) * (25 / 100 * ((- MR + 1) * (- MR + 1))))) = - P4)
    by (unfold P4; destruct (Rle_dec 1 (Rabs ML)); field).
  rewrite Q4, N4.
  set (M12 := P4 + M4 - 25 / 100 / fa * ms * (c_p B - c_p A) / r12).
  replace (- M4 + - P4 - 25 / 100 / fa * ms * (c_p A - c_p B) / r12) with (- M12) by (unfold M12, Rdiv; ring).
  set (al := 3 / 16 * (-4 + 5 * (fa * fa))).
  set (PP := if Rle_dec 1 (Rabs ML) then 1 / ML * (5 / 10 * (ML + Rabs ML)) else 25 / 100 * ((ML + 1) * (ML + 1)) * (2 - ML - 16 * al * ML * (- (25 / 100) * ((MR - 1) * (MR - 1))))).
  set (PM := if Rle_dec 1 (Rabs MR) then 1 / MR * (5 / 10 * (MR - Rabs MR)) else - (25 / 100) * ((MR - 1) * (MR - 1)) * (-2 - MR + 16 * al * MR * (25 / 100 * ((ML + 1) * (ML + 1))))).
  assert (QP: (if Rle_dec 1 (Rabs MR) then 1 / - MR * (5 / 10 * (- MR + Rabs MR)) else 25 / 100 * ((- MR + 1) * (- MR + 1)) * (2 - - MR - 16 * al * - MR * (- (25 / 100) * ((- ML - 1) * (- ML - 1))))) = PM).
  { unfold PM. destruct (Rle_dec 1 (Rabs MR)) as [X|X]; [|clearbody al; field]. assert (MR <> 0) by (intros E; rewrite E, Rabs_R0 in X; lra). field. auto. }
  assert (QM: (if Rle_dec 1 (Rabs ML) then 1 / - ML * (5 / 10 * (- ML - Rabs ML)) else - (25 / 100) * ((- ML - 1) * (- ML - 1)) * (-2 - - ML + 16 * al * - ML * (25 / 100 * ((- MR + 1) * (- MR + 1))))) = PP).
  { unfold PP. destruct (Rle_dec 1 (Rabs ML)) as [X|X]; [|clearbody al; field]. assert (ML <> 0) by (intros E; rewrite E, Rabs_R0 in X; lra). field. auto. }
  rewrite QP, QM.
  set (p12 := PP * c_p A + PM * c_p B - 75 / 100 * PP * PM * (c_rho B + c_rho A) * (fa * a) * (UB - UA)).
  replace (PM * c_p B + PP * c_p A - 75 / 100 * PM * PP * (c_rho B + c_rho A) * (fa * a) * (- UA - - UB)) with p12 by (unfold p12; ring).
  clearbody p12 M12. clear - Hl Pa P1 P2.
  destruct (Rlt_dec 0 M12), (Rlt_dec 0 (- M12)); try lra.
  - assert (0 < a * M12 * c_rho A) by (apply Rmult_lt_0_compat; [apply Rmult_lt_0_compat|]; auto).
    destruct (Rlt_dec 0 (a * M12 * c_rho A)); [|lra]. destruct (Rlt_dec 0 (a * - M12 * c_rho A)); [lra|].
    lcases l Hl; [| | | | |rewrite !comp_ge5 by auto; ring]; cbn [comp Z.eqb Pos.eqb]; unfold Rdiv; ring.
  - assert (0 < a * - M12 * c_rho B) by (apply Rmult_lt_0_compat; [apply Rmult_lt_0_compat|]; auto).
    destruct (Rlt_dec 0 (a * - M12 * c_rho B)); [|lra]. destruct (Rlt_dec 0 (a * M12 * c_rho B)); [lra|].
    lcases l Hl; [| | | | |rewrite !comp_ge5 by auto; ring]; cbn [comp Z.eqb Pos.eqb]; unfold Rdiv; ring.
  - replace M12 with 0 by lra. replace (a * - 0 * c_rho A) with 0 by ring. replace (a * 0 * c_rho B) with 0 by ring.
    destruct (Rlt_dec 0 0); [lra|]. 
    lcases l Hl; [| | | | |rewrite !comp_ge5 by auto; ring]; cbn [comp Z.eqb Pos.eqb]; unfold Rdiv; ring.
Qed.
