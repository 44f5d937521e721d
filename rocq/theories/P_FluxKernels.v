(** Properties C26-C32 and C83: the advective flux kernels. *)
From Coq Require Import Reals ZArith List Bool Lia Lra.
From Verif Require Import M_Topology S_Topology M_Halo S_Halo M_Grid M_Metrics S_Metrics S_Sum M_Flux S_Flux M_FluxKernels S_FluxKernels
  L_Grid3 L_Vec L_Flux1 L_FluxK1 L_FluxK2 P_Metrics P_Flux.
Import ListNotations.
Open Scope R_scope.

(** C27.  Consistency: on a uniform stencil the kernel returns the exact Euler flux. *)
Theorem C27_consistent : forall f g st c l,
  In f [KEEP; KEEPpe; centralDifference; fourthOrderKEEP; rusanov; muscl2rusanov] ->
  faceVectors g -> uniform st c -> coherent c -> (0 <= l)%Z -> f g st l = eulerFlux c (gs g) l.
Proof.
  intros f g st c l Hf HF HU HC Hl. repeat (destruct Hf as [<-|Hf]); [| | | | | |destruct Hf].
  - now apply KEEP_consistent.
  - now apply KEEPpe_consistent.
  - now apply central_consistent.
  - now apply fourth_consistent.
  - unfold rusanov. cbv zeta. rewrite !(HU _) by lia. apply rusanovFlux_consistent; auto; now apply ofCell_is.
  - unfold muscl2rusanov. cbv zeta. apply rusanovFlux_consistent; auto; now apply muscl_is.
Qed.
(** KEPaEC takes a harmonic mean of the internal energies, so it needs a non-zero internal energy. *)
Theorem C27_consistent_KEPaEC : forall g st c l, c_re c <> 0 -> uniform st c -> coherent c -> (0 <= l)%Z -> KEPaEC g st l = eulerFlux c (gs g) l.
Proof. intros. now apply KEPaEC_consistent. Qed.
Theorem C27_consistent_ausmPlusUp : forall g st c l, 0 < c_c c -> faceVectors g -> uniform st c -> coherent c -> (0 <= l)%Z -> ausmPlusUp g st l = eulerFlux c (gs g) l.
Proof. intros. now apply ausm_consistent. Qed.
(** what the two HLLC kernels return on a uniform stencil *)
Definition hllcUniform (g : fgeo) (c : cell) (l : Z) : R :=
  let U := dot3 (vel c) (gn g) in
  if Rle_dec (c_c c) U then eulerFlux c (gs g) l
  else if Rle_dec 0 U then eulerFlux c (gs g) l - (U - c_c c) * c_rho c * gS g * tangential g c l
  else if Rle_dec 0 (U + c_c c) then eulerFlux c (gs g) l - (U + c_c c) * c_rho c * gS g * tangential g c l
  else eulerFlux c (gs g) l.
Lemma hllc_on_uniform f g st c l : In f [hllc; muscl2hllc] -> 0 < c_c c -> faceVectors g -> uniform st c -> coherent c -> (0 <= l)%Z ->
  f g st l = hllcUniform g c l.
Proof.
  intros Hf Hc HF HU HC Hl.
  assert (E: f g st l = hllcFlux (fun _ => 0) g (ofCell c) (ofCell c) l \/
             f g st l = hllcFlux (fun _ => 0) g (musclState true st false) (musclState true st true) l).
  { destruct Hf as [<-|[<-|[]]]; [left|right; reflexivity]. unfold hllc. now rewrite !(HU _) by lia. }
  destruct E as [-> | ->]; apply hllcFlux_value; auto; first [now apply ofCell_is|now apply muscl_is].
Qed.
(** HLLC (and MUSCL-HLLC): consistent in mass, energy and species always, and in momentum when the
    flow is normal to the face or supersonic through it. *)
Theorem C27_hllc_partial : forall f g st c l, In f [hllc; muscl2hllc] -> 0 < c_c c -> faceVectors g -> uniform st c -> coherent c -> (0 <= l)%Z ->
  ~ (1 <= l <= 3)%Z \/ vel c = vscale (faceNormalVelocity g c) (gn g) \/ c_c c <= Rabs (faceNormalVelocity g c) ->
  f g st l = eulerFlux c (gs g) l.
Proof.
  intros f g st c l Hf Hc HF HU HC Hl HT.
  rewrite (hllc_on_uniform f g st c l) by auto. unfold hllcUniform. cbv zeta. unfold faceNormalVelocity in HT. set (U := dot3 (vel c) (gn g)) in *.
  assert (T: tangential g c l = 0 \/ c_c c <= Rabs U).
  { destruct HT as [HT|[HT|HT]]; [left|left|right; auto].
    - unfold tangential. repeat match goal with |- context [(?x =? ?y)%Z] => destruct (Z.eqb_spec x y); [lia|] end. reflexivity.
    - unfold tangential. fold U. unfold vel in HT. apply (f_equal (fun v => (vx v, vy v, vz v))) in HT. vcomp. injection HT as H1 H2 H3.
      rewrite H1, H2, H3. destruct (l =? 1)%Z, (l =? 2)%Z, (l =? 3)%Z; ring. }
  destruct (Rle_dec (c_c c) U); [reflexivity|]. destruct (Rle_dec 0 U).
  - destruct T as [->|T]; [ring|]. rewrite Rabs_pos_eq in T by lra. lra.
  - destruct (Rle_dec 0 (U + c_c c)); [|reflexivity]. destruct T as [->|T]; [ring|]. rewrite Rabs_left in T by lra. replace (U + c_c c) with 0 by lra. ring.
Qed.

(** A uniform subsonic stream oblique to the face: the HLLC star state has lost the tangential velocity. *)
Definition exCell (rho u v w p E c re : R) : cell :=
  mkCell (fun l => match l with 0%Z => rho | 1%Z => rho * u | 2%Z => rho * v | 3%Z => rho * w | 4%Z => E | _ => 0 end)
         (fun l => match l with 0%Z => p | 1%Z => u | 2%Z => v | 3%Z => w | 4%Z => 300 | _ => 0 end)
         (fun l => match l with 3%Z => c | 4%Z => re | _ => 1 end).
Lemma exCell_coherent rho u v w p c re : rho <> 0 -> coherent (exCell rho u v w p (re + rho / 2 * (u*u + v*v + w*w)) c re).
Proof.
  intros H. unfold coherent, exCell, c_rho, c_u, c_v, c_w, c_E, c_re. cbn [cQ cq ch].
  split; [auto|]. do 3 (split; [reflexivity|]). split.
  - unfold vel, c_u, c_v, c_w. cbn [cq]. vcomp. reflexivity.
  - intros l Hl. destruct l as [|[[p0|p0|]|[p0|p0|]|]|p0]; try lia; try ring; destruct p0; try lia; ring.
Qed.
Definition oblique : cell := exCell 1 1 1 0 1 (2 + 1/2 * (1*1+1*1+0*0)) 10 2.
Theorem C27_hllc_refuted : exists g c, faceVectors g /\ dot3 (gn g) (gn g) = 1 /\ coherent c /\ 0 < c_rho c /\ 0 < c_p c /\ 0 < c_c c /\
  forall f, In f [hllc; muscl2hllc] -> f g (fun _ => c) 2%Z <> eulerFlux c (gs g) 2%Z.
Proof.
  assert (HC: coherent oblique) by (apply exCell_coherent; lra).
  assert (HF: faceVectors (mkGeo 1 (1,0,0) (1,0,0))) by (unfold faceVectors; cbn [gs gS gn]; vext; ring).
  exists (mkGeo 1 (1,0,0) (1,0,0)), oblique. split; [auto|]. split; [cbn [gn]; vcomp; ring|]. split; [auto|].
  do 3 (split; [cbn; lra|]). intros f Hf.
  rewrite (hllc_on_uniform f _ _ oblique) by (auto; try lia; try (cbn; lra); intros ? ?; reflexivity).
  unfold hllcUniform, tangential. cbv zeta. cbn [gn gs gS Z.eqb Pos.eqb]. unfold vel, oblique, exCell, c_c, c_rho, c_u, c_v, c_w. cbn [cq cQ ch]. vcomp.
  destruct (Rle_dec 10 _); [lra|]. destruct (Rle_dec 0 _); lra.
Qed.
