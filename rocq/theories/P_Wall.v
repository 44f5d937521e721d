(** C93: what crosses a wall.  The wall condition followed by the flux kernels. *)
From Coq Require Import Reals ZArith List Bool Lra Lia Psatz.
From Verif Require Import M_Topology M_Halo M_Grid M_Metrics S_Metrics M_Flux M_FluxKernels M_Thermo L_Vec M_Bc S_Bc L_Bc P_Bc P_Metrics.
Import ListNotations.
Open Scope R_scope.

Lemma bfaceFlux_block d ng n f X (blk : field) a b : isBface n ->
  exists g st, (forall l, bfaceFlux d ng n (blockFlux f X blk) a b l = f g st l) /\ gs g = bfaceArea d ng n X a b /\ gS g = faceSize (gs g) /\ gn g = faceNormal (gs g) /\
  forall m, st m = cellOf blk (layerCell d ng n (if Z.odd n then m + 1 else - m) a b).
Proof.
  intros H. unfold bfaceFlux, blockFlux, bfaceArea, layerCell, layerIndex, nodesAlong, cellOf.
  destruct (face_cases n H) as [->|[->|[->|[->|[->| ->]]]]]; cbn [Z.odd Z.leb Z.compare Pos.compare Pos.compare_cont iF jF kF];
   [ eexists (geoI X _ _ _), (stI blk _ _ _) | eexists (geoI X _ _ _), (stI blk _ _ _) | eexists (geoJ X _ _ _), (stJ blk _ _ _) | eexists (geoJ X _ _ _), (stJ blk _ _ _)
   | eexists (geoK X _ _ _), (stK blk _ _ _) | eexists (geoK X _ _ _), (stK blk _ _ _) ];
   (split; [intros; reflexivity | ]; split; [reflexivity | ]; split; [reflexivity | ]; split; [reflexivity | ]; intros m; unfold stI, stJ, stK; f_equal; lia).
Qed.
Lemma area_split s : vx s = faceSize s * vx (faceNormal s) /\ vy s = faceSize s * vy (faceNormal s) /\ vz s = faceSize s * vz (faceNormal s).
Proof.
  assert (P : 0 < faceSize s) by (eapply Rlt_le_trans; [apply tiny_pos | apply C21_area_positive]).
  unfold faceNormal. rewrite vx_mk, vy_mk, vz_mk. split; [ | split]; field; lra.
Qed.

Section Wall.
Variables (eos : cell -> cell) (d : dims) (ng ne n : Z) (fd : faceData) (X : nodes) (k : bcKind) (blk blk' : field).
Hypothesis Hn : isBface n.
Hypothesis Hg : (ng = 1 \/ ng = 2)%Z.
Hypothesis D : (2 <= ni d /\ 2 <= nj d /\ 2 <= nk d)%Z.
Hypothesis He : keepsPrimitives ne eos.
Hypothesis Hne : (5 <= ne)%Z.
Hypothesis Wk : isWall k.
Let nI i j l := faceNormal (iArea X i j l).
Let nJ i j l := faceNormal (jArea X i j l).
Let nK i j l := faceNormal (kArea X i j l).
Hypothesis Ran : bcEuler k eos d ng ne n fd nI nJ nK blk = Some blk'.
Variables a b : Z.
Hypothesis Ob : onBface d ng n a b.
Hypothesis Area : tiny <= sqrt (dot3 (bfaceArea d ng n X a b) (bfaceArea d ng n X a b)).
Let h := cellOf blk' (layerCell d ng n 0 a b).
Let c := cellOf blk' (layerCell d ng n 1 a b).
Let A := bfaceArea d ng n X a b.
Let N := faceNormal A.

Lemma N_eq : bfaceNormal d ng n nI nJ nK a b = N.
Proof. unfold N, A, bfaceNormal, bfaceArea, nI, nJ, nK. destruct (n <=? 2)%Z; [reflexivity | ]. destruct (n <=? 4)%Z; reflexivity. Qed.
Lemma N_unit : unitv N.
Proof. unfold unitv, N, A. exact (proj1 (proj2 (C21_unit_normal _ Area))). Qed.
Lemma wall_facts :
  dotv (velocity h) N = - dotv (velocity c) N /\ dotv (velocity h) (velocity h) = dotv (velocity c) (velocity c) /\ c_p h = c_p c /\
  (forall t, dotv t N = 0 -> dotv (velocity h) t = dotv (velocity c) t) /\ c = cellOf blk (layerCell d ng n 1 a b).
Proof.
  assert (U := N_unit). rewrite <- N_eq in U.
  destruct (C51_impermeable eos d ng ne n fd nI nJ nK Hn Hg D He Hne k blk blk' Wk Ran 0%Z a b ltac:(destruct Hg; lia) Ob U) as (E1 & E2 & E3 & E4 & E5).
  rewrite N_eq in *. change (- 0)%Z with 0%Z in *. fold h c in E1, E2, E3, E4, E5.
  split; [ | split; [exact E3 | split; [exact E4 | split; [exact E5 | exact E1]]]].
  unfold dotv, meanv in E2 |- *. rewrite vx_mk, vy_mk, vz_mk in E2. lra.
Qed.
Lemma pair_cells f : exists g st, (forall l, bfaceFlux d ng n (blockFlux f X blk') a b l = f g st l) /\ gs g = A /\ gS g = faceSize A /\ gn g = N /\
  ((st (-1)%Z = h /\ st 0%Z = c) \/ (st (-1)%Z = c /\ st 0%Z = h)).
Proof.
  destruct (bfaceFlux_block d ng n f X blk' a b Hn) as (g & st & E & G1 & G2 & G3 & S). exists g, st. split; [exact E | ].
  split; [exact G1 | ]. split; [rewrite G2, G1; reflexivity | ]. split; [rewrite G3, G1; reflexivity | ].
  rewrite !S. destruct (Z.odd n); [left | right]; split; reflexivity.
Qed.
Let S := faceSize A.
Let un := dotv (velocity c) N.
Lemma velN cc : vx A * c_u cc + vy A * c_v cc + vz A * c_w cc = S * dotv (velocity cc) N.
Proof.
  destruct (area_split A) as (X1 & X2 & X3). fold N S in X1, X2, X3. unfold dotv, velocity, c_u, c_v, c_w. rewrite vx_mk, vy_mk, vz_mk. rewrite X1, X2, X3. ring.
Qed.
Lemma keep_zero (Ij : R -> R -> R) L Rc g : gs g = A -> (L = h /\ Rc = c \/ L = c /\ Rc = h) -> Ij 0 0 = 0 ->
  forall l, (l = 0 \/ 4 <= l)%Z -> keepLike Ij g L Rc l = 0.
Proof.
  intros G LR I0 l Hl. destruct wall_facts as (F1 & F2 & F3 & _).
  assert (V : dotv (velocity L) N + dotv (velocity Rc) N = 0 /\ c_p L = c_p Rc) by (destruct LR as [[-> ->] | [-> ->]]; split; lra).
  destruct V as (V & P).
  assert (U0 : vx A * (5 / 10 * (c_u Rc + c_u L)) + vy A * (5 / 10 * (c_v Rc + c_v L)) + vz A * (5 / 10 * (c_w Rc + c_w L)) = 0).
  { transitivity (5/10 * ((vx A * c_u Rc + vy A * c_v Rc + vz A * c_w Rc) + (vx A * c_u L + vy A * c_v L + vz A * c_w L))); [ring | ].
    rewrite !velN. transitivity (5/10 * S * (dotv (velocity L) N + dotv (velocity Rc) N)); [ring | rewrite V; ring]. }
  assert (P0 : 5/10 * (c_p L * (c_u Rc * vx A + c_v Rc * vy A + c_w Rc * vz A) + c_p Rc * (c_u L * vx A + c_v L * vy A + c_w L * vz A)) = 0).
  { rewrite P. transitivity (5/10 * c_p Rc * ((vx A * c_u Rc + vy A * c_v Rc + vz A * c_w Rc) + (vx A * c_u L + vy A * c_v L + vz A * c_w L))); [ring | ].
    rewrite !velN. transitivity (5/10 * c_p Rc * S * (dotv (velocity L) N + dotv (velocity Rc) N)); [ring | rewrite V; ring]. }
  unfold keepLike. rewrite G. cbv zeta. rewrite U0, P0. unfold comp.
  destruct (Z.eqb_spec l 0); [ring | ]. destruct (Z.eqb_spec l 1); [lia | ]. destruct (Z.eqb_spec l 2); [lia | ]. destruct (Z.eqb_spec l 3); [lia | ].
  destruct (Z.eqb_spec l 4); [ | ring ]. rewrite !Rmult_0_r, I0. ring.
Qed.
(** with the kinetic-energy-preserving kernels no mass, energy or species crosses any wall *)
Theorem C93_no_flux_KEEP : forall f, f = KEEP \/ f = KEEPpe \/ f = KEPaEC -> forall l, (l = 0 \/ 4 <= l)%Z ->
  bfaceFlux d ng n (blockFlux f X blk') a b l = 0.
Proof.
  intros f Hf l Hl. destruct (pair_cells f) as (g & st & E & G1 & G2 & G3 & LR). rewrite E.
  destruct Hf as [-> | [-> | ->]]; [ unfold KEEP | unfold KEEPpe | unfold KEPaEC ]; apply keep_zero; auto; try ring; tauto.
Qed.

(** adiabatic walls: the halo has the thermodynamic state of the interior cell *)
Hypothesis Ad : In k [adiabaticNoSlipWall; adiabaticSlipWall; adiabaticMovingWall].
Hypothesis Th : thermoOnly ne eos.
Hypothesis Co : forall x, coherentCell (eos x).
Hypothesis Ie : atEos ne eos c.
Lemma same_state : sameThermo ne h c /\ coherentCell h.
Proof.
  assert (Hk' : k <> nullBc) by (intros ->; cbn [In] in Ad; decompose [or] Ad; try discriminate; contradiction).
  assert (Hk2 : k <> stagnationSubsonicInlet) by (intros ->; cbn [In] in Ad; decompose [or] Ad; try discriminate; contradiction).
  assert (Q := euler_at eos d ng ne n fd nI nJ nK Hn Hg D k blk blk' Hk' Ran 0%Z a b ltac:(destruct Hg; lia) Ob).
  rewrite normal_spec in Q by auto. rewrite N_eq in Q. change (- 0)%Z with 0%Z in Q. fold h in Q.
  destruct wall_facts as (_ & _ & _ & _ & Ec). rewrite <- Ec in Q.
  assert (Q' : h = eos (setCq (wallEuler false ne N (f_qBc fd a b) (cq c) (cq (cellOf blk (layerCell d ng n 0 a b)))) (cellOf blk (layerCell d ng n 0 a b)))).
  { rewrite Q. clear Q. cbn [In] in Ad. destruct k; first [ exfalso; decompose [or] Ad; first [discriminate | contradiction] | reflexivity ]. }
  rewrite Q'. split; [ | apply Co].
  set (w := setCq _ _). destruct Ie as [(I1 & I2 & I3 & I4) _].
  assert (T : sameThermo ne (eos w) (eos c)).
  { apply Th. intros l Hl. unfold w, setCq, wallEuler, mirrorU, withVel. cbn [cq]. destruct (Z.eqb_spec l 1); [lia | ]. destruct (Z.eqb_spec l 2); [lia | ]. destruct (Z.eqb_spec l 3); [lia | ].
    rewrite inB by lia. rewrite andb_false_r. reflexivity. }
  destruct T as (T1 & T2 & T3 & T4). split; [congruence | ]. split; [congruence | ]. split; [congruence | ].
  intros l Hl. destruct (T4 l Hl), (I4 l Hl). split; congruence.
Qed.
Lemma state_facts : c_rho h = c_rho c /\ c_p h = c_p c /\ c_E h = c_E c /\ c_c h = c_c c /\ (forall l, (5 <= l < ne)%Z -> cQ h l = cQ c l) /\
  dotv (velocity h) N = - un.
Proof.
  destruct same_state as ((S1 & S2 & S3 & S4) & (_ & _ & _ & C4)). destruct wall_facts as (F1 & F2 & F3 & _). destruct Ie as [_ (_ & _ & _ & K4)].
  split; [exact S1 | ]. split; [exact F3 | ]. split; [rewrite C4, K4, S1, S2, F2; reflexivity | ]. split; [exact S3 | ]. split; [intros l Hl; exact (proj1 (S4 l Hl)) | exact F1].
Qed.
Lemma momN cc : coherentCell cc -> vx A * cQ cc 1%Z + vy A * cQ cc 2%Z + vz A * cQ cc 3%Z = S * c_rho cc * dotv (velocity cc) N.
Proof.
  intros (M1 & M2 & M3 & _). rewrite M1, M2, M3. generalize (velN cc). unfold c_u, c_v, c_w. intros V.
  transitivity (c_rho cc * (vx A * cq cc 1%Z + vy A * cq cc 2%Z + vz A * cq cc 3%Z)); [ring | rewrite V; ring].
Qed.
(** so with central differences, and with the upwind kernels, nothing but momentum crosses an adiabatic wall either *)
Theorem C93_no_flux_central : forall l, (l = 0 \/ 4 <= l < ne)%Z -> bfaceFlux d ng n (blockFlux centralDifference X blk') a b l = 0.
Proof.
  intros l Hl. destruct (pair_cells centralDifference) as (g & st & E & G1 & G2 & G3 & LR). rewrite E. unfold centralDifference. rewrite G1.
  destruct state_facts as (S1 & S2 & S3 & S4 & S5 & S6). destruct same_state as (_ & Ch). destruct Ie as [_ Cc].
  assert (UH : c_u h * vx A + c_v h * vy A + c_w h * vz A = - (S * un)) by (generalize (velN h); rewrite S6; lra).
  assert (UC : c_u c * vx A + c_v c * vy A + c_w c * vz A = S * un) by (generalize (velN c); unfold un; lra).
  assert (MH := momN h Ch). assert (MC := momN c Cc). rewrite S6, S1 in MH. fold un in MC.
  unfold comp. destruct LR as [[-> ->] | [-> ->]]; cbv zeta; rewrite UH, UC, ?S3, ?S2;
   (destruct (Z.eqb_spec l 0); [rewrite MH, MC; ring | ]; destruct (Z.eqb_spec l 1); [lia | ]; destruct (Z.eqb_spec l 2); [lia | ]; destruct (Z.eqb_spec l 3); [lia | ];
    destruct (Z.eqb_spec l 4); [ring | rewrite S5 by lia; ring]).
Qed.
Lemma fnN g cc : gn g = N -> fn g (ofCell cc) = dotv (velocity cc) N.
Proof. intros G. unfold fn. rewrite G. unfold ofCell, dotv, velocity, c_u, c_v, c_w. cbn [f_u f_v f_w]. rewrite vx_mk, vy_mk, vz_mk. ring. Qed.
Theorem C93_no_flux_rusanov : forall l, (l = 0 \/ 4 <= l < ne)%Z -> bfaceFlux d ng n (blockFlux rusanov X blk') a b l = 0.
Proof.
  intros l Hl. destruct (pair_cells rusanov) as (g & st & E & G1 & G2 & G3 & LR). rewrite E. unfold rusanov.
  destruct state_facts as (S1 & S2 & S3 & S4 & S5 & S6).
  unfold rusanovFlux. cbv zeta. generalize (rusanovLam g (ofCell (st (-1)%Z)) (ofCell (st 0%Z))). intros lam.
  unfold comp. destruct LR as [[-> ->] | [-> ->]]; rewrite !fnN by exact G3; rewrite S6; fold un; unfold ofCell; cbn [f_rho f_E f_p f_rY]; rewrite ?S1, ?S2, ?S3;
   (destruct (Z.eqb_spec l 0); [ring | ]; destruct (Z.eqb_spec l 1); [lia | ]; destruct (Z.eqb_spec l 2); [lia | ]; destruct (Z.eqb_spec l 3); [lia | ];
    destruct (Z.eqb_spec l 4); [ring | rewrite S5 by lia; ring]).
Qed.
(** HLLC: for wall-normal speeds below the sound speed *)
Theorem C93_no_flux_hllc : 0 < c_rho c -> Rabs un < c_c c -> (forall l, (5 <= l < ne)%Z -> cQ c l = c_rho c * cq c l) ->
  forall l, (l = 0 \/ 4 <= l < ne)%Z -> bfaceFlux d ng n (blockFlux hllc X blk') a b l = 0.
Proof.
  intros Rp Sub Sp l Hl. destruct (pair_cells hllc) as (g & st & E & G1 & G2 & G3 & LR). rewrite E. unfold hllc.
  destruct state_facts as (S1 & S2 & S3 & S4 & S5 & S6).
  assert (Sy : forall l, (5 <= l < ne)%Z -> cq h l = cq c l) by (intros l' Hl'; destruct same_state as ((_ & _ & _ & Z4) & _); exact (proj2 (Z4 l' Hl'))).
  assert (B : - c_c c < un < c_c c) by (apply Rabs_def2 in Sub; lra).
  set (r := c_rho c) in *. set (cs := c_c c) in *.
  assert (Star : forall L Rc, (L = h /\ Rc = c \/ L = c /\ Rc = h) -> hllcSstar g (ofCell L) (ofCell Rc) = 0 /\ hllcSL g (ofCell L) (ofCell Rc) < 0 /\
       fn g (ofCell L) = dotv (velocity L) N /\ f_c (ofCell L) = cs).
  { intros L Rc [[-> ->] | [-> ->]]; unfold hllcSstar, hllcSL, hllcSR; rewrite !fnN by exact G3; rewrite S6; fold un; unfold ofCell; cbn [f_rho f_p f_c]; rewrite ?S1, ?S2, ?S4; fold r cs;
      (split; [ | split; [lra | split; reflexivity]]).
    - replace (c_p c - c_p c + r * - un * (- un - cs - - un) - r * un * (un + cs - un)) with 0 by ring. unfold Rdiv. ring.
    - replace (c_p c - c_p c + r * un * (un - cs - un) - r * - un * (- un + cs - - un)) with 0 by ring. unfold Rdiv. ring. }
  assert (LR' : st (-1)%Z = h /\ st 0%Z = c \/ st (-1)%Z = c /\ st 0%Z = h) by exact LR.
  destruct (Star _ _ LR') as (T1 & T2 & T3 & T4). unfold hllcFlux. cbv zeta. rewrite T1.
  destruct (Rle_dec 0 (hllcSL g (ofCell (st (-1)%Z)) (ofCell (st 0%Z)))) as [Q | _]; [lra | ].
  destruct (Rle_dec (hllcSL g (ofCell (st (-1)%Z)) (ofCell (st 0%Z))) 0) as [_ | Q]; [ | lra].
  destruct (Rle_dec 0 0) as [_ | Q]; [ | lra].
  set (W := hllcSL g (ofCell (st (-1)%Z)) (ofCell (st 0%Z))) in *.
  assert (We : W = fn g (ofCell (st (-1)%Z)) - cs) by (unfold W, hllcSL; rewrite T4; reflexivity).
  set (UL := fn g (ofCell (st (-1)%Z))) in *.
  assert (Lr : c_rho (st (-1)%Z) = r /\ (forall l', (5 <= l' < ne)%Z -> cQ (st (-1)%Z) l' = r * cq (st (-1)%Z) l')).
  { destruct LR as [[-> _] | [-> _]]; (split; [auto | ]); intros l' Hl'; [ rewrite S5, Sy by auto | ]; apply Sp; auto. }
  destruct Lr as (Lr & Ls). set (L := st (-1)%Z) in *.
  unfold starFlux, sideFlux. cbv zeta. fold UL.
  unfold comp. unfold ofCell; cbn [f_rho f_E f_p f_rY f_Y f_mx f_my f_mz]. rewrite Lr.
  destruct (Z.eqb_spec l 0); [cbn [Z.eqb]; replace (W - UL) with (- cs) by lra; replace UL with (W + cs) by lra; field; lra | ].
  destruct (Z.eqb_spec l 1); [lia | ]. destruct (Z.eqb_spec l 2); [lia | ]. destruct (Z.eqb_spec l 3); [lia | ].
  destruct (Z.eqb_spec l 4).
  - cbn [Z.eqb Pos.eqb]. replace (W - UL) with (- cs) by lra. replace UL with (W + cs) by lra. field. lra.
  - rewrite Ls by lia. replace (W - UL) with (- cs) by lra. replace UL with (W + cs) by lra. field. lra.
Qed.
End Wall.

(** Upwind kernels at an isothermal wall: as soon as the halo's density differs from the interior's, mass crosses the wall. *)
Theorem C93_isothermal_refuted : forall eos d ng ne n fd X k blk blk' a b, isBface n -> (ng = 1 \/ ng = 2)%Z -> (2 <= ni d /\ 2 <= nj d /\ 2 <= nk d)%Z ->
  keepsPrimitives ne eos -> (5 <= ne)%Z -> isWall k ->
  bcEuler k eos d ng ne n fd (fun i j l => faceNormal (iArea X i j l)) (fun i j l => faceNormal (jArea X i j l)) (fun i j l => faceNormal (kArea X i j l)) blk = Some blk' ->
  onBface d ng n a b -> tiny <= sqrt (dot3 (bfaceArea d ng n X a b) (bfaceArea d ng n X a b)) ->
  let h := cellOf blk' (layerCell d ng n 0 a b) in let c := cellOf blk' (layerCell d ng n 1 a b) in
  0 < c_c h -> 0 < c_c c -> c_rho h <> c_rho c -> bfaceFlux d ng n (blockFlux rusanov X blk') a b 0%Z <> 0.
Proof.
  intros eos d ng ne n fd X k blk blk' a b Hn Hg D He Hne Wk Ran Ob Ar h c Hh Hc Nr.
  destruct (pair_cells d ng n X blk' Hn a b rusanov) as (g & st & E & G1 & G2 & G3 & LR). rewrite E.
  destruct (wall_facts eos d ng ne n fd X k blk blk' Hn Hg D He Hne Wk Ran a b Ob Ar) as (F1 & _).
  fold h c in F1, LR. set (N := faceNormal (bfaceArea d ng n X a b)) in *. set (un := dotv (velocity c) N) in *.
  assert (P : 0 < gS g) by (rewrite G2; eapply Rlt_le_trans; [apply tiny_pos | apply C21_area_positive]).
  assert (fnc : forall cc, fn g (ofCell cc) = dotv (velocity cc) N).
  { intros cc. unfold fn. rewrite G3. unfold ofCell, dotv, velocity, c_u, c_v, c_w. cbn [f_u f_v f_w]. rewrite vx_mk, vy_mk, vz_mk. ring. }
  unfold rusanov, rusanovFlux. cbv zeta. unfold comp. cbn [Z.eqb].
  set (lam := rusanovLam g (ofCell (st (-1)%Z)) (ofCell (st 0%Z))).
  assert (Lb : Rabs un < lam).
  { unfold lam, rusanovLam. destruct LR as [[-> ->] | [-> ->]]; rewrite !fnc, F1, ?Rabs_Ropp; fold un; unfold ofCell; cbn [f_c];
     (eapply Rlt_le_trans; [ | apply Rmax_l]); lra. }
  apply Rabs_def2 in Lb. clearbody lam. destruct LR as [[-> ->] | [-> ->]]; rewrite !fnc, F1; fold un; unfold ofCell; cbn [f_rho]; intros Z0; apply Nr; apply Rminus_diag_uniq.
  - assert (Z1 : (gS g * (lam - un)) * (c_rho h - c_rho c) = 0) by lra. destruct (Rmult_integral _ _ Z1) as [Q | Q]; [nra | exact Q].
  - assert (Z1 : (gS g * (lam + un)) * (c_rho h - c_rho c) = 0) by lra. destruct (Rmult_integral _ _ Z1) as [Q | Q]; [nra | exact Q].
Qed.
(** Fourth order: both halo layers copy the first interior layer, so the wide stencil sees a normal velocity at the wall *)
Theorem C93_fourth_order_refuted : forall eos d ne n fd X k blk blk' a b, isBface n -> (2 <= ni d /\ 2 <= nj d /\ 2 <= nk d)%Z ->
  keepsPrimitives ne eos -> (5 <= ne)%Z -> isWall k ->
  bcEuler k eos d 2 ne n fd (fun i j l => faceNormal (iArea X i j l)) (fun i j l => faceNormal (jArea X i j l)) (fun i j l => faceNormal (kArea X i j l)) blk = Some blk' ->
  onBface d 2 n a b -> tiny <= sqrt (dot3 (bfaceArea d 2 n X a b) (bfaceArea d 2 n X a b)) ->
  let c := cellOf blk' (layerCell d 2 n 1 a b) in let c2 := cellOf blk' (layerCell d 2 n 2 a b) in
  let N := faceNormal (bfaceArea d 2 n X a b) in let mean (x y : cell) := (c_rho x + c_rho y) / 2 in
  let h := cellOf blk' (layerCell d 2 n 0 a b) in let h2 := cellOf blk' (layerCell d 2 n (-1) a b) in
  8 * mean h c <> mean h c2 + mean h2 c ->
  (bfaceFlux d 2 n (blockFlux fourthOrderKEEP X blk') a b 0%Z = 0 <-> dotv (velocity c2) N = dotv (velocity c) N).
Proof.
  intros eos d ne n fd X k blk blk' a b Hn D He Hne Wk Ran Ob Ar c c2 N mean h h2 Rn.
  destruct (bfaceFlux_block d 2 n fourthOrderKEEP X blk' a b Hn) as (g & st & E & G1 & G2 & G3 & S). rewrite E.
  assert (U : unitv N) by exact (proj1 (proj2 (C21_unit_normal _ Ar))).
  assert (Nq := N_eq d 2 n X a b). fold N in Nq.
  assert (W : forall g', (0 <= g' < 2)%Z -> dotv (velocity (cellOf blk' (layerCell d 2 n (- g') a b))) N = - dotv (velocity c) N).
  { intros g' Hg'. assert (U' := U). rewrite <- Nq in U'.
    destruct (C51_impermeable eos d 2 ne n fd _ _ _ Hn (or_intror eq_refl) D He Hne k blk blk' Wk Ran g' a b Hg' Ob U') as (_ & E2 & _).
    rewrite Nq in E2. fold c in E2. unfold dotv, meanv in E2 |- *. rewrite vx_mk, vy_mk, vz_mk in E2. lra. }
  assert (W0 := W 0%Z ltac:(lia)). assert (W1 := W 1%Z ltac:(lia)). change (- 0)%Z with 0%Z in W0. change (- (1))%Z with (-1)%Z in W1. fold h in W0. fold h2 in W1.
  assert (P : 0 < gS g) by (rewrite G2; eapply Rlt_le_trans; [apply tiny_pos | apply C21_area_positive]).
  set (A := bfaceArea d 2 n X a b) in *.
  assert (V : forall cc, vx A * c_u cc + vy A * c_v cc + vz A * c_w cc = faceSize A * dotv (velocity cc) N) by (intros; apply velN).
  rewrite G2, G1 in P.
  unfold fourthOrderKEEP, comp. cbv zeta. cbn [Z.eqb]. rewrite G1. unfold keepSum, aq. change (zrange 1 3) with [1;2]%Z.
  cbn [fold_left Z.eqb Pos.eqb]. change (zrange 0 1) with [0]%Z. change (zrange 0 2) with [0;1]%Z. cbn [fold_left].
  change (0 - 1)%Z with (-1)%Z. change (0 - 2)%Z with (-2)%Z. change (1 - 2)%Z with (-1)%Z.
  assert (V0 := V h). assert (V1 := V h2). assert (V2 := V c). assert (V3 := V c2). rewrite W0 in V0. rewrite W1 in V1.
  unfold mean in Rn.
  assert (K : forall U' rho', rho' <> 0 -> (rho' * U' = 0 <-> U' = 0)).
  { intros U' r' R'. split; [intros Q; destruct (Rmult_integral _ _ Q); [contradiction | auto] | intros ->; ring]. }
  assert (Fin : forall U', U' = - (1/12) * faceSize A * (dotv (velocity c2) N - dotv (velocity c) N) -> (U' = 0 <-> dotv (velocity c2) N = dotv (velocity c) N)).
  { intros U' ->. split; [intros Q | intros ->; ring]. apply Rminus_diag_uniq. destruct (Rmult_integral _ _ Q) as [Q' | Q']; [nra | exact Q']. }
  rewrite !S. destruct (Z.odd n); cbn [Z.add Z.opp Z.pos_sub Pos.pred_double Pos.add Z.succ_double Z.pred_double Pos.succ].
  - change (-2 + 1)%Z with (-1)%Z. change (-1 + 1)%Z with 0%Z. fold h h2 c c2. rewrite K; [ apply Fin | lra ].
    transitivity (2/3 * ((vx A * c_u c + vy A * c_v c + vz A * c_w c) + (vx A * c_u h + vy A * c_v h + vz A * c_w h))
       - 1/12 * ((vx A * c_u c + vy A * c_v c + vz A * c_w c) + (vx A * c_u h2 + vy A * c_v h2 + vz A * c_w h2) + (vx A * c_u c2 + vy A * c_v c2 + vz A * c_w c2) + (vx A * c_u h + vy A * c_v h + vz A * c_w h))).
    { field. } rewrite V0, V1, V2, V3. field.
  - fold h h2 c c2. rewrite K; [ apply Fin | lra ].
    transitivity (2/3 * ((vx A * c_u c + vy A * c_v c + vz A * c_w c) + (vx A * c_u h + vy A * c_v h + vz A * c_w h))
       - 1/12 * ((vx A * c_u c + vy A * c_v c + vz A * c_w c) + (vx A * c_u h2 + vy A * c_v h2 + vz A * c_w h2) + (vx A * c_u c2 + vy A * c_v c2 + vz A * c_w c2) + (vx A * c_u h + vy A * c_v h + vz A * c_w h))).
    { field. } rewrite V0, V1, V2, V3. field.
Qed.
