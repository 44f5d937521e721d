(** C154: second-order accuracy of the central schemes. *)
From Coq Require Import Reals ZArith List Bool Lra Lia Psatz.
From Coquelicot Require Import Coquelicot.
From Verif Require Import L_Vec M_Halo M_Grid M_Metrics S_Metrics M_Flux M_FluxKernels S_Order4 S_Order2 P_Order4 L_Order2.
Import ListNotations.
Open Scope R_scope.
Lemma sumq_pos a b c e : 0 < a -> 0 < b -> 0 < c -> 0 < e -> a / b + c / e <> 0.
Proof. intros. assert (0 < a / b) by (apply Rdiv_lt_0_compat; auto). assert (0 < c / e) by (apply Rdiv_lt_0_compat; auto). lra. Qed.
Ltac openK := unfold KEEP, KEEPpe, KEPaEC, centralDifference, fourthOrderKEEP, keepLike, c_rho, c_u, c_v, c_w, c_p, c_E, c_re, gasCell, eulerFlux, energy; cbv beta zeta; unfold comp; cbn [cQ cq ch Z.eqb Pos.eqb];
  repeat match goal with H : (_ =? _)%Z = false |- _ => rewrite H end; unfold keepSum; change (zrange 1 3) with [1; 2]%Z; cbn [fold_left]; change (zrange 0 1) with [0]%Z; change (zrange 0 2) with [0; 1]%Z; cbn [fold_left]; unfold aq; cbn [Z.eqb Pos.eqb];
  change (0 - 1)%Z with (-1)%Z; change (0 - 2)%Z with (-2)%Z; change (1 - 2)%Z with (-1)%Z; cbv beta; cbn [cQ cq ch Z.eqb Pos.eqb]; repeat match goal with H : (_ =? _)%Z = false |- _ => rewrite H end.
Ltac sm := repeat first [apply smooth_plus|apply smooth_minus|apply smooth_opp|apply smooth_div|apply smooth_mult|apply smooth_const|apply smooth_shift].
Ltac at0 x := repeat match goal with |- context [x + 0 * ?c] => replace (x + 0 * c) with x by ring end.

Ltac pos := unfold Rgt; repeat first [apply Rplus_lt_0_compat|apply Rmult_lt_0_compat|apply Rinv_0_lt_compat|apply Rdiv_lt_0_compat]; auto.
Ltac nz := repeat (match goal with |- _ /\ _ => split end); auto; try (apply Rgt_not_eq; pos; fail).
Ltac flatK := openK; unfold vx, vy, vz; cbn [gs fst snd].
Ltac run1 := flatK; sm; auto; try (intros; apply sumq_pos; auto).
Ltac run2 x := let h := fresh in intros h; flatK;
    replace (x + - h * (0 + 1)) with (x + h * -1) by ring; replace (x + - h * (-1 + 1)) with (x + h * 0) by ring;
    replace (x + - h * (-2 + 1)) with (x + h * 1) by ring; replace (x + - h * (1 + 1)) with (x + h * -2) by ring; try (field; nz).
Lemma value (f : R -> R) x d e : derivable_pt_lim f x d -> is_derive f x e -> d = e.
Proof. intros A B. apply (uniqueness_limite f x); auto. apply is_derive_Reals. auto. Qed.
Ltac run3 x D := eapply value in D; [|flatK; auto_derive; [nz|reflexivity]]; rewrite D; clear D; 
    apply is_derive_Reals; flatK; auto_derive; [nz|at0 x; try (field; nz)].
Section K.
Variables (g : fgeo) (w : gas) (x d : R).
Hypothesis (Sm : smoothGas w) (Re : realGas w).
Ltac start := 
  destruct Sm as (Sr & Su & Sv & Sw & Sp & Se & _ & Sy), Re as (Pr & Pe & _); destruct g as [a [[sx sy] sz] nn];
  pose proof (smooth_ex _ _ Sr) as Er; pose proof (smooth_ex _ _ Su) as Eu; pose proof (smooth_ex _ _ Sv) as Ev; pose proof (smooth_ex _ _ Sw) as Ew; pose proof (smooth_ex _ _ Sp) as Ep; pose proof (smooth_ex _ _ Se) as Ee;
  pose proof (fun l => smooth_ex _ _ (Sy l)) as Ey;
  assert (Nr : forall x, frho w x <> 0) by (intros z; specialize (Pr z); lra).
Ltac go := intros D; start; apply second_order; [run1|run2 x|run3 x D].
Lemma o_KEEP_0 : derivable_pt_lim (eulerFlux g w 0) x d -> orderAt 2 (fun h => leaving KEEP g w h x 0) d.
Proof. go. Qed.
Lemma o_KEEP_1 : derivable_pt_lim (eulerFlux g w 1) x d -> orderAt 2 (fun h => leaving KEEP g w h x 1) d.
Proof. go. Qed.
Lemma o_KEEP_2 : derivable_pt_lim (eulerFlux g w 2) x d -> orderAt 2 (fun h => leaving KEEP g w h x 2) d.
Proof. go. Qed.
Lemma o_KEEP_3 : derivable_pt_lim (eulerFlux g w 3) x d -> orderAt 2 (fun h => leaving KEEP g w h x 3) d.
Proof. go. Qed.
Lemma o_KEEP_4 : derivable_pt_lim (eulerFlux g w 4) x d -> orderAt 2 (fun h => leaving KEEP g w h x 4) d.
Proof. go. Qed.
Lemma o_KEEPpe_0 : derivable_pt_lim (eulerFlux g w 0) x d -> orderAt 2 (fun h => leaving KEEPpe g w h x 0) d.
Proof. go. Qed.
Lemma o_KEEPpe_1 : derivable_pt_lim (eulerFlux g w 1) x d -> orderAt 2 (fun h => leaving KEEPpe g w h x 1) d.
Proof. go. Qed.
Lemma o_KEEPpe_2 : derivable_pt_lim (eulerFlux g w 2) x d -> orderAt 2 (fun h => leaving KEEPpe g w h x 2) d.
Proof. go. Qed.
Lemma o_KEEPpe_3 : derivable_pt_lim (eulerFlux g w 3) x d -> orderAt 2 (fun h => leaving KEEPpe g w h x 3) d.
Proof. go. Qed.
Lemma o_KEEPpe_4 : derivable_pt_lim (eulerFlux g w 4) x d -> orderAt 2 (fun h => leaving KEEPpe g w h x 4) d.
Proof. go. Qed.
Lemma o_centralDifference_0 : derivable_pt_lim (eulerFlux g w 0) x d -> orderAt 2 (fun h => leaving centralDifference g w h x 0) d.
Proof. go. Qed.
Lemma o_centralDifference_1 : derivable_pt_lim (eulerFlux g w 1) x d -> orderAt 2 (fun h => leaving centralDifference g w h x 1) d.
Proof. go. Qed.
Lemma o_centralDifference_2 : derivable_pt_lim (eulerFlux g w 2) x d -> orderAt 2 (fun h => leaving centralDifference g w h x 2) d.
Proof. go. Qed.
Lemma o_centralDifference_3 : derivable_pt_lim (eulerFlux g w 3) x d -> orderAt 2 (fun h => leaving centralDifference g w h x 3) d.
Proof. go. Qed.
Lemma o_centralDifference_4 : derivable_pt_lim (eulerFlux g w 4) x d -> orderAt 2 (fun h => leaving centralDifference g w h x 4) d.
Proof. go. Qed.
Lemma o_fourthOrderKEEP_0 : derivable_pt_lim (eulerFlux g w 0) x d -> orderAt 2 (fun h => leaving fourthOrderKEEP g w h x 0) d.
Proof. go. Qed.
Lemma o_fourthOrderKEEP_1 : derivable_pt_lim (eulerFlux g w 1) x d -> orderAt 2 (fun h => leaving fourthOrderKEEP g w h x 1) d.
Proof. go. Qed.
Lemma o_fourthOrderKEEP_2 : derivable_pt_lim (eulerFlux g w 2) x d -> orderAt 2 (fun h => leaving fourthOrderKEEP g w h x 2) d.
Proof. go. Qed.
Lemma o_fourthOrderKEEP_3 : derivable_pt_lim (eulerFlux g w 3) x d -> orderAt 2 (fun h => leaving fourthOrderKEEP g w h x 3) d.
Proof. go. Qed.
Lemma o_fourthOrderKEEP_4 : derivable_pt_lim (eulerFlux g w 4) x d -> orderAt 2 (fun h => leaving fourthOrderKEEP g w h x 4) d.
Proof. go. Qed.
Lemma o_KEPaEC_0 : derivable_pt_lim (eulerFlux g w 0) x d -> orderAt 2 (fun h => leaving KEPaEC g w h x 0) d.
Proof. go. Qed.
Lemma o_KEPaEC_1 : derivable_pt_lim (eulerFlux g w 1) x d -> orderAt 2 (fun h => leaving KEPaEC g w h x 1) d.
Proof. go. Qed.
Lemma o_KEPaEC_2 : derivable_pt_lim (eulerFlux g w 2) x d -> orderAt 2 (fun h => leaving KEPaEC g w h x 2) d.
Proof. go. Qed.
Lemma o_KEPaEC_3 : derivable_pt_lim (eulerFlux g w 3) x d -> orderAt 2 (fun h => leaving KEPaEC g w h x 3) d.
Proof. go. Qed.
Lemma o_KEPaEC_4 : derivable_pt_lim (eulerFlux g w 4) x d -> orderAt 2 (fun h => leaving KEPaEC g w h x 4) d.
Proof. go. Qed.
Lemma o_KEEP_5 l : (5 <= l)%Z -> derivable_pt_lim (eulerFlux g w l) x d -> orderAt 2 (fun h => leaving KEEP g w h x l) d.
Proof. intros Hl. assert (L0 : (l =? 0)%Z = false) by lia. assert (L1 : (l =? 1)%Z = false) by lia. assert (L2 : (l =? 2)%Z = false) by lia. assert (L3 : (l =? 3)%Z = false) by lia. assert (L4 : (l =? 4)%Z = false) by lia. go. Qed.
Lemma o_KEEPpe_5 l : (5 <= l)%Z -> derivable_pt_lim (eulerFlux g w l) x d -> orderAt 2 (fun h => leaving KEEPpe g w h x l) d.
Proof. intros Hl. assert (L0 : (l =? 0)%Z = false) by lia. assert (L1 : (l =? 1)%Z = false) by lia. assert (L2 : (l =? 2)%Z = false) by lia. assert (L3 : (l =? 3)%Z = false) by lia. assert (L4 : (l =? 4)%Z = false) by lia. go. Qed.
Lemma o_KEPaEC_5 l : (5 <= l)%Z -> derivable_pt_lim (eulerFlux g w l) x d -> orderAt 2 (fun h => leaving KEPaEC g w h x l) d.
Proof. intros Hl. assert (L0 : (l =? 0)%Z = false) by lia. assert (L1 : (l =? 1)%Z = false) by lia. assert (L2 : (l =? 2)%Z = false) by lia. assert (L3 : (l =? 3)%Z = false) by lia. assert (L4 : (l =? 4)%Z = false) by lia. go. Qed.
Lemma o_centralDifference_5 l : (5 <= l)%Z -> derivable_pt_lim (eulerFlux g w l) x d -> orderAt 2 (fun h => leaving centralDifference g w h x l) d.
Proof. intros Hl. assert (L0 : (l =? 0)%Z = false) by lia. assert (L1 : (l =? 1)%Z = false) by lia. assert (L2 : (l =? 2)%Z = false) by lia. assert (L3 : (l =? 3)%Z = false) by lia. assert (L4 : (l =? 4)%Z = false) by lia. go. Qed.
Lemma o_fourthOrderKEEP_5 l : (5 <= l)%Z -> derivable_pt_lim (eulerFlux g w l) x d -> orderAt 2 (fun h => leaving fourthOrderKEEP g w h x l) d.
Proof. intros Hl. assert (L0 : (l =? 0)%Z = false) by lia. assert (L1 : (l =? 1)%Z = false) by lia. assert (L2 : (l =? 2)%Z = false) by lia. assert (L3 : (l =? 3)%Z = false) by lia. assert (L4 : (l =? 4)%Z = false) by lia. go. Qed.
End K.

(** C154.  Along any line of evenly spaced cells, whatever the area vector of its faces, the central schemes
    approximate the divergence of the Euler fluxes of every smooth gas to second order in the spacing. *)
Definition centralSchemes : list flux1 := [KEEP; KEEPpe; KEPaEC; centralDifference; fourthOrderKEEP].
Theorem C154_second_order : forall f g w x l d, In f centralSchemes -> smoothGas w -> realGas w -> (0 <= l)%Z ->
  derivable_pt_lim (eulerFlux g w l) x d -> orderAt 2 (fun h => leaving f g w h x l) d.
Proof.
  intros f g w x l d I S P Hl D.
  assert (C : (l = 0 \/ l = 1 \/ l = 2 \/ l = 3 \/ l = 4 \/ 5 <= l)%Z) by lia.
  destruct I as [<- | I]; [destruct C as [-> | [-> | [-> | [-> | [-> | C]]]]];
   [exact (o_KEEP_0 g w x d S P D)|exact (o_KEEP_1 g w x d S P D)|exact (o_KEEP_2 g w x d S P D)|exact (o_KEEP_3 g w x d S P D)|exact (o_KEEP_4 g w x d S P D)|exact (o_KEEP_5 g w x d S P l C D)]|].
  destruct I as [<- | I]; [destruct C as [-> | [-> | [-> | [-> | [-> | C]]]]];
   [exact (o_KEEPpe_0 g w x d S P D)|exact (o_KEEPpe_1 g w x d S P D)|exact (o_KEEPpe_2 g w x d S P D)|exact (o_KEEPpe_3 g w x d S P D)|exact (o_KEEPpe_4 g w x d S P D)|exact (o_KEEPpe_5 g w x d S P l C D)]|].
  destruct I as [<- | I]; [destruct C as [-> | [-> | [-> | [-> | [-> | C]]]]];
   [exact (o_KEPaEC_0 g w x d S P D)|exact (o_KEPaEC_1 g w x d S P D)|exact (o_KEPaEC_2 g w x d S P D)|exact (o_KEPaEC_3 g w x d S P D)|exact (o_KEPaEC_4 g w x d S P D)|exact (o_KEPaEC_5 g w x d S P l C D)]|].
  destruct I as [<- | I]; [destruct C as [-> | [-> | [-> | [-> | [-> | C]]]]];
   [exact (o_centralDifference_0 g w x d S P D)|exact (o_centralDifference_1 g w x d S P D)|exact (o_centralDifference_2 g w x d S P D)|exact (o_centralDifference_3 g w x d S P D)|exact (o_centralDifference_4 g w x d S P D)|exact (o_centralDifference_5 g w x d S P l C D)]|].
  destruct I as [<- | I]; [destruct C as [-> | [-> | [-> | [-> | [-> | C]]]]];
   [exact (o_fourthOrderKEEP_0 g w x d S P D)|exact (o_fourthOrderKEEP_1 g w x d S P D)|exact (o_fourthOrderKEEP_2 g w x d S P D)|exact (o_fourthOrderKEEP_3 g w x d S P D)|exact (o_fourthOrderKEEP_4 g w x d S P D)|exact (o_fourthOrderKEEP_5 g w x d S P l C D)]|].
  destruct I.
Qed.

(** a gas at rest whose density alone varies: nothing should move, but Rusanov's flux diffuses mass at first order *)
Definition resting : gas := mkGas (fun x => 1 + x * x) (fun _ => 0) (fun _ => 0) (fun _ => 0) (fun _ => 1) (fun _ => 1) (fun _ => 1) (fun _ _ => 0).
Lemma smooth_id n : smooth n (fun x => x).
Proof. destruct n; [apply derivable_continuous, derivable_id|]. exists (fun _ => 1). split; [intros; apply derivable_pt_lim_id|apply smooth_const]. Qed.
Lemma resting_ok : smoothGas resting /\ realGas resting.
Proof.
  split; [|unfold realGas, resting; cbn [frho fre fc]; split; [intros x; nra|split; intros; lra]].
  unfold smoothGas, resting. cbn [frho fu fv fw fp fre fc fy]. split; [|do 6 (split; [apply smooth_const|]); intros; apply smooth_const].
  apply smooth_plus; [apply smooth_const|]. apply smooth_mult; apply smooth_id.
Qed.
Theorem C154_rusanov_first_order : let g := mkGeo 1 (1, 0, 0) (1, 0, 0) in smoothGas resting /\ realGas resting /\
  forall x, derivable_pt_lim (eulerFlux g resting 0) x 0 /\ orderAt 1 (fun h => leaving rusanov g resting h x 0) 0 /\ ~ orderAt 2 (fun h => leaving rusanov g resting h x 0) 0.
Proof.
  intros g. split; [apply resting_ok|]. split; [apply resting_ok|]. intros x.
  assert (E : forall h, 0 < h -> leaving rusanov g resting h x 0 = - h).
  { intros h Hh. unfold leaving, rusanov, rusanovFlux, rusanovLam, ofCell, fn, g, gasCell, resting, c_rho, c_u, c_v, c_w, c_p, c_c, c_E, energy. cbn [frho fu fv fw fp fre fc fy].
    cbn [cQ cq ch f_rho f_u f_v f_w f_p f_E f_c comp Z.eqb Pos.eqb gS gs gn]. unfold vx, vy, vz. cbn [fst snd]. unfold comp. cbn [Z.eqb].
    rewrite !Rmult_0_r, !Rplus_0_r, Rabs_R0, !Rplus_0_l. rewrite Rmax_left by lra. change (IZR (-1)) with (-1). change (IZR 0) with 0. field. lra. }
  split; [|split].
  - apply is_derive_Reals. unfold eulerFlux, resting, g. cbv zeta. cbn [Z.eqb frho fu fv fw gs]. unfold vx, vy, vz. cbn [fst snd]. auto_derive; auto. ring.
  - exists 1, 1. split; [lra|]. intros h Hh. rewrite E by lra. rewrite Rminus_0_r, Rabs_Ropp, Rabs_pos_eq by lra. lra.
  - intros (C & h0 & P & H). set (h := Rmin (h0 / 2) (/ (2 * (Rabs C + 1)))). assert (Ca : 0 <= Rabs C) by apply Rabs_pos.
    assert (I : 0 < / (2 * (Rabs C + 1))) by (apply Rinv_0_lt_compat; lra).
    assert (Hp : 0 < h) by (unfold h; apply Rmin_pos; lra). assert (H1 : h <= h0 / 2) by apply Rmin_l. assert (H2 : h <= / (2 * (Rabs C + 1))) by apply Rmin_r. clearbody h.
    specialize (H h ltac:(lra)). rewrite E in H by auto. rewrite Rminus_0_r, Rabs_Ropp, Rabs_pos_eq in H by lra.
    assert (K : Rabs C * h <= 1 / 2). { apply Rle_trans with ((Rabs C + 1) * / (2 * (Rabs C + 1))); [apply Rmult_le_compat; lra|]. apply Req_le. field. lra. }
    pose proof (Rle_abs C). assert (C * h ^ 2 <= (Rabs C * h) * h) by (replace (C * h ^ 2) with (C * (h * h)) by ring; rewrite Rmult_assoc; apply Rmult_le_compat_r; nra).
    assert ((Rabs C * h) * h <= 1 / 2 * h) by (apply Rmult_le_compat_r; lra). lra.
Qed.

(** the same gas in motion, through an oblique face: every central scheme, every component, with the value of the derivative *)
Example C154_nonvacuous : let g := mkGeo 3 (1, 2, 2) (1/3, 2/3, 2/3) in
  let w := mkGas (fun x => 1 + x * x) (fun x => x) (fun x => 1 + x) (fun _ => 2) (fun x => 3 + x * x) (fun _ => 5) (fun _ => 1) (fun l x => x) in
  smoothGas w /\ realGas w /\ derivable_pt_lim (eulerFlux g w 0) 1 24.
Proof.
  intros g w. split; [|split].
  - unfold smoothGas, w. cbn [frho fu fv fw fp fre fc fy]. repeat split; intros; repeat first [apply smooth_plus|apply smooth_minus|apply smooth_mult|apply smooth_const|apply smooth_id].
  - unfold realGas, w. cbn [frho fre fc]. split; [intros; nra|split; intros; lra].
  - apply is_derive_Reals. unfold eulerFlux, w, g. cbv zeta. cbn [Z.eqb frho fu fv fw gs]. unfold vx, vy, vz. cbn [fst snd]. auto_derive; auto. ring.
Qed.
Print Assumptions C154_second_order. Print Assumptions C154_rusanov_first_order.
