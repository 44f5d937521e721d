(** Consistency and symmetry of the advective flux kernels. *)
From Coq Require Import Reals ZArith List Bool Lia Lra.
From Verif Require Import M_Topology S_Topology M_Halo S_Halo M_Grid M_Metrics S_Metrics M_Flux M_FluxKernels S_FluxKernels L_Grid3 L_Vec.
Import ListNotations.
Open Scope R_scope.

Lemma comp_ge5 a b c d e f l : (5 <= l)%Z -> comp a b c d e f l = f l.
Proof. intros H. unfold comp. repeat match goal with |- context [(?x =? ?y)%Z] => destruct (Z.eqb_spec x y); [lia|] end. reflexivity. Qed.
Lemma euler_ge5 c s l : (5 <= l)%Z -> eulerFlux c s l = cQ c l * dot3 (vel c) s.
Proof. intros H. unfold eulerFlux. cbv zeta. destruct l as [|[[p|p|]|[p|p|]|]|p]; try lia; try reflexivity; destruct p; try lia; reflexivity. Qed.
Ltac lcases l H := assert (Hl5: (l = 0 \/ l = 1 \/ l = 2 \/ l = 3 \/ l = 4 \/ 5 <= l)%Z) by lia;
  destruct Hl5 as [->|[->|[->|[->|[->|Hl5]]]]].
Lemma keepSum_eq f : keepSum f = 2 * (2/3 * f 0%Z (-1)%Z + - (1/12) * (f 0%Z (-2)%Z + f 1%Z (-1)%Z)).
Proof. unfold keepSum. change (zrange 1 3) with [1;2]%Z. cbn [fold_left]. change (zrange 0 1) with [0]%Z. change (zrange 0 2) with [0;1]%Z. cbn [fold_left Z.sub Z.add Z.opp Z.pos_sub Pos.pred_double]. unfold aq. cbn [Z.eqb Pos.eqb]. change (1 + -2)%Z with (-1)%Z. field. Qed.

Section Consistency.
Variables (g : fgeo) (st : Z -> cell) (c : cell) (l : Z).
Hypotheses (HU : uniform st c) (HC : coherent c) (Hl : (0 <= l)%Z).
Lemma stm m : (-2 <= m <= 1)%Z -> st m = c. Proof. apply HU. Qed.

Lemma keepLike_consistent Ij :
  (let U := dot3 (vel c) (gs g) in Ij (c_rho c * U) U = c_re c * U) -> keepLike Ij g c c l = eulerFlux c (gs g) l.
Proof.
  intros HI. cbv zeta in HI. destruct HC as (Hr & H1 & H2 & H3 & HE & HY).
  assert (EU: vx (gs g) * (5/10 * (c_u c + c_u c)) + vy (gs g) * (5/10 * (c_v c + c_v c)) + vz (gs g) * (5/10 * (c_w c + c_w c)) = dot3 (vel c) (gs g))
    by (unfold vel; vcomp; field).
  assert (ER: 5/10 * (c_rho c + c_rho c) = c_rho c) by field.
  unfold keepLike. cbv zeta. rewrite EU, ER, HI.
  lcases l Hl; [| | | | |rewrite comp_ge5, euler_ge5, HY by auto; field]; cbn [comp Z.eqb Pos.eqb eulerFlux]; try (field; fail).
  cbv zeta. rewrite HE. unfold vel in *. vcomp. field.
Qed.
Lemma KEEP_consistent : KEEP g st l = eulerFlux c (gs g) l.
Proof. unfold KEEP. rewrite !stm by lia. apply keepLike_consistent. cbv zeta. field. apply HC. Qed.
Lemma KEEPpe_consistent : KEEPpe g st l = eulerFlux c (gs g) l.
Proof. unfold KEEPpe. rewrite !stm by lia. apply keepLike_consistent. cbv zeta. field. Qed.
Lemma KEPaEC_consistent : c_re c <> 0 -> KEPaEC g st l = eulerFlux c (gs g) l.
Proof. intros He. unfold KEPaEC. rewrite !stm by lia. apply keepLike_consistent. cbv zeta. field. split; [apply HC|]. lra. Qed.
Lemma central_consistent : centralDifference g st l = eulerFlux c (gs g) l.
Proof.
  unfold centralDifference. rewrite !stm by lia. destruct HC as (Hr & H1 & H2 & H3 & HE & HY). rewrite H1, H2, H3. cbv zeta.
  lcases l Hl; [| | | | |rewrite comp_ge5, euler_ge5, HY by auto]; cbn [comp Z.eqb Pos.eqb eulerFlux]; cbv zeta; unfold vel; vcomp; field.
Qed.
Lemma fourth_consistent : fourthOrderKEEP g st l = eulerFlux c (gs g) l.
Proof.
  unfold fourthOrderKEEP. cbv zeta. rewrite !keepSum_eq. rewrite !stm by lia. destruct HC as (Hr & H1 & H2 & H3 & HE & HY).
  lcases l Hl; [| | | | |rewrite comp_ge5, euler_ge5, HY, keepSum_eq, !stm by (auto; lia); unfold vel; vcomp; field];
  cbn [comp Z.eqb Pos.eqb eulerFlux]; cbv zeta; try rewrite HE; unfold vel; vcomp; field; auto.
Qed.
Hypothesis HF : faceVectors g.
Lemma sx : vx (gs g) = gS g * vx (gn g). Proof. rewrite HF. reflexivity. Qed.
Lemma sy : vy (gs g) = gS g * vy (gn g). Proof. rewrite HF. reflexivity. Qed.
Lemma sz : vz (gs g) = gS g * vz (gn g). Proof. rewrite HF. reflexivity. Qed.

(** a face state that is the cell's state *)
Definition isState (s : fstate) : Prop :=
  f_rho s = c_rho c /\ f_u s = c_u c /\ f_v s = c_v c /\ f_w s = c_w c /\ f_p s = c_p c /\ f_E s = c_E c /\ f_c s = c_c c /\
  f_mx s = c_rho c * c_u c /\ f_my s = c_rho c * c_v c /\ f_mz s = c_rho c * c_w c /\
  (forall l, (5 <= l)%Z -> f_rY s l = c_rho c * cq c l) /\ (forall l, (5 <= l)%Z -> f_Y s l = cq c l).
Lemma ofCell_is : isState (ofCell c).
Proof. destruct HC as (Hr & H1 & H2 & H3 & HE & HY). unfold isState, ofCell. cbn. repeat split; auto. Qed.
Lemma muscl_is b r : isState (musclState b st r).
Proof.
  destruct HC as (Hr & H1 & H2 & H3 & HE & HY).
  assert (A: forall h v phi, (forall m, (-2 <= m <= 1)%Z -> h m = v) -> useR phi h = v /\ useL phi h = v).
  { intros h v phi H. unfold useR, useL. rewrite !H by lia. lra. }
  assert (B: forall (h : Z -> R) v phi, (forall m, (-2 <= m <= 1)%Z -> h m = v) -> (if r then useR else useL) phi h = v).
  { intros h v phi H. destruct r; apply (A h v phi H). }
  assert (E: forall (F : cell -> R) phi, (if r then useR else useL) phi (fun m => F (st m)) = F c).
  { intros F phi. apply B. intros m Hm. now rewrite stm. }
  unfold isState, musclState. cbv zeta. cbn [f_rho f_u f_v f_w f_p f_E f_c f_mx f_my f_mz f_rY f_Y].
  rewrite !(E c_rho), !(E c_u), !(E c_v), !(E c_w), !(E c_p), !(E c_c), !(E (fun c => c_re c / c_rho c)).
  repeat split; auto.
  - rewrite HE. unfold vel. vcomp. field. auto.
  - intros l0 H0. destruct b; [now rewrite (E (fun c => cq c l0))|]. rewrite (E (fun c => cQ c l0)). auto.
  - intros l0 H0. now rewrite (E (fun c => cq c l0)).
Qed.
Lemma fn_is s : isState s -> fn g s * gS g = dot3 (vel c) (gs g).
Proof. intros (A & B & D & E & _). unfold fn. rewrite B, D, E. unfold vel. vcomp. rewrite sx, sy, sz. ring. Qed.
Lemma rusanovFlux_consistent lam L Rs : isState L -> isState Rs -> rusanovFlux lam g L Rs l = eulerFlux c (gs g) l.
Proof.
  intros HL HR. unfold rusanovFlux. rewrite (fn_is L HL), (fn_is Rs HR). cbv zeta.
  destruct HL as (L1 & L2 & L3 & L4 & L5 & L6 & L7 & L8 & L9 & L10 & L11 & L12), HR as (R1 & R2 & R3 & R4 & R5 & R6 & R7 & R8 & R9 & R10 & R11 & R12).
  rewrite L1, L2, L3, L4, L5, L6, R1, R2, R3, R4, R5, R6.
  lcases l Hl; [| | | | |rewrite comp_ge5, euler_ge5, L11, R11 by auto; destruct HC as (_ & _ & _ & _ & _ & HY); rewrite HY by auto; field];
  cbn [comp Z.eqb Pos.eqb eulerFlux]; cbv zeta; field.
Qed.
Lemma sideFlux_consistent s : isState s -> forall m, (0 <= m)%Z -> sideFlux g s m = eulerFlux c (gs g) m.
Proof.
  intros HS m Hm. unfold sideFlux. cbv zeta. pose proof (fn_is s HS) as HU'. destruct HS as (L1 & L2 & L3 & L4 & L5 & L6 & L7 & L8 & L9 & L10 & L11 & L12).
  rewrite L1, L5, L6, L8, L9, L10.
  lcases m Hm; [| | | | |rewrite comp_ge5, euler_ge5, L11 by auto; destruct HC as (_ & _ & _ & _ & _ & HY); rewrite HY by auto; rewrite <- HU'; ring];
  cbn [comp Z.eqb Pos.eqb eulerFlux]; cbv zeta; rewrite <- HU'; ring.
Qed.
Lemma Sstar_consistent L Rs : isState L -> isState Rs -> c_c c <> 0 -> hllcSstar g L Rs = dot3 (vel c) (gn g).
Proof.
  intros HL HR Hc. assert (FL: forall s, isState s -> fn g s = dot3 (vel c) (gn g)).
  { intros s (A & B & D & E & _). unfold fn. rewrite B, D, E. unfold vel. vcomp. ring. }
  unfold hllcSstar, hllcSL, hllcSR. rewrite (FL L HL), (FL Rs HR). cbv zeta.
  destruct HL as (L1 & L2 & L3 & L4 & L5 & L6 & L7 & _), HR as (R1 & R2 & R3 & R4 & R5 & R6 & R7 & _). rewrite L1, L5, L7, R1, R5, R7.
  destruct HC as (Hr & _). field.
  replace (c_rho c * (dot3 (vel c) (gn g) - c_c c - dot3 (vel c) (gn g)) - c_rho c * (dot3 (vel c) (gn g) + c_c c - dot3 (vel c) (gn g))) with (-2 * (c_rho c * c_c c)) by ring.
  intros X. apply Hr. apply Rmult_integral in X as [X|X]; [lra|]. apply Rmult_integral in X. tauto.
Qed.
(** the star flux at S* = U differs from the Euler flux exactly by the tangential momentum *)
Definition tangential (m : Z) : R :=
  let U := dot3 (vel c) (gn g) in
  if (m =? 1)%Z then c_u c - U * vx (gn g) else if (m =? 2)%Z then c_v c - U * vy (gn g) else if (m =? 3)%Z then c_w c - U * vz (gn g) else 0.
Lemma starFlux_value W s : isState s -> W <> dot3 (vel c) (gn g) ->
  forall m, (0 <= m)%Z -> starFlux g W (dot3 (vel c) (gn g)) s m = eulerFlux c (gs g) m - W * c_rho c * gS g * tangential m.
Proof.
  intros HS HW m Hm. unfold starFlux. rewrite !(sideFlux_consistent s HS) by lia. cbv zeta.
  assert (FL: fn g s = dot3 (vel c) (gn g)).
  { destruct HS as (A & B & D & E & _). unfold fn. rewrite B, D, E. unfold vel. vcomp. ring. }
  rewrite FL. pose proof (fn_is s HS) as HU'. rewrite FL in HU'.
  destruct HS as (L1 & L2 & L3 & L4 & L5 & L6 & L7 & L8 & L9 & L10 & L11 & L12). rewrite L1, L5, L6, L8, L9, L10.
  destruct HC as (Hr & _ & _ & _ & _ & HY). set (U := dot3 (vel c) (gn g)) in *. unfold tangential. fold U.
  lcases m Hm; [| | | | |rewrite comp_ge5, euler_ge5, L11, L12, HY, <- HU' by auto;
     repeat match goal with |- context [(?x =? ?y)%Z] => destruct (Z.eqb_spec x y); [lia|] end; field; auto; lra];
  cbn [comp Z.eqb Pos.eqb]; clearbody U; cbv zeta; try (field; auto; lra).
Qed.
End Consistency.
