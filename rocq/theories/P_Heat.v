(** C158: heat flows from the hotter cell to the colder one. *)
From Coq Require Import Reals ZArith List Bool Lia Lra Psatz.
From Verif Require Import M_Topology M_Halo M_Grid M_Metrics S_Metrics S_Sum M_Flux S_Flux P_Flux M_FluxKernels S_FluxKernels M_Thermo S_Thermo L_Grid1 L_Grid3 L_Sum L_Thermo L_Vec P_Metrics M_Diff S_Diff L_Diff P_Diff M_DiffBlock S_Heat.
Import ListNotations.
Open Scope R_scope.

(** a face across an axis, midway between its cells: the damped gradient is the two-point difference *)
Definition midway (e : vec) (S h : R) (f : dface) (L Rc : dcell) : Prop :=
  In e [ex; ey; ez] /\ fs f = vscale S e /\ fnn f = e /\ dX Rc = vadd (dX L) (vscale h e) /\ fx f = vadd (dX L) (vscale (h / 2) e).
Lemma mag_axis (h : R) : 0 < h -> sqrt (h ^ 2 + 0 ^ 2 + 0 ^ 2) = h /\ sqrt (0 ^ 2 + h ^ 2 + 0 ^ 2) = h /\ sqrt (0 ^ 2 + 0 ^ 2 + h ^ 2) = h.
Proof.
  intros H. replace (h ^ 2 + 0 ^ 2 + 0 ^ 2) with (h * h) by ring. replace (0 ^ 2 + h ^ 2 + 0 ^ 2) with (h * h) by ring. replace (0 ^ 2 + 0 ^ 2 + h ^ 2) with (h * h) by ring.
  rewrite sqrt_square by lra. auto.
Qed.
Lemma midway_gradient e S h f L Rc l : 0 < h -> midway e S h f L Rc -> dot3 (dampedGrad f L Rc l) (fs f) = S * (dq Rc l - dq L l) / h.
Proof.
  intros H (He & Es & En & EX & Ex). unfold dampedGrad. cbv zeta.
  assert (M : magEdotN f L Rc = h).
  { unfold magEdotN. rewrite EX, En. destruct (mag_axis h H) as (M1 & M2 & M3). unfold ex, ey, ez in He. destruct He as [<- |[<- |[<- |[]]]]; vcomp.
    - transitivity (sqrt (h ^ 2 + 0 ^ 2 + 0 ^ 2)); [f_equal; ring|exact M1].
    - transitivity (sqrt (0 ^ 2 + h ^ 2 + 0 ^ 2)); [f_equal; ring|exact M2].
    - transitivity (sqrt (0 ^ 2 + 0 ^ 2 + h ^ 2)); [f_equal; ring|exact M3]. }
  rewrite M. unfold extrapolate. rewrite Es, En, Ex, EX. unfold avg. destruct (dG L l) as [[g1 g2] g3], (dG Rc l) as [[k1 k2] k3], (dX L) as [[x y] z].
  unfold ex, ey, ez in He. destruct He as [<- |[<- |[<- |[]]]]; vcomp; field; lra.
Qed.

Section Grid.
Variables (X : nodes) (o : vec) (hx hy hz : R) (D : Z -> Z -> Z -> dcell).
Hypothesis HB : boxes X o hx hy hz.
Hypothesis HD : onGrid X D.
Lemma unit_of (s : vec) (S : R) (e : vec) : In e [ex; ey; ez] -> tiny <= S -> s = vscale S e -> faceNormal s = e.
Proof.
  intros He HS ->. pose proof tiny_pos. assert (F : faceSize (vscale S e) = S).
  { unfold faceSize, clip. replace (sqrt _) with S; [apply Rmax_left; auto|]. rewrite <- (sqrt_square S) at 1 by lra. f_equal. unfold ex, ey, ez in He. destruct He as [<- |[<- |[<- |[]]]]; vcomp; ring. }
  unfold faceNormal. rewrite F. unfold ex, ey, ez in *. destruct He as [<- |[<- |[<- |[]]]]; vext; field; lra.
Qed.
Lemma midI i j k : midway ex (hy * hz) hx (faceI X i j k) (D (i - 1)%Z j k) (D i j k).
Proof.
  destruct HB as (HA & Px & Py & Pz & A1 & A2 & A3). assert (E : iArea X i j k = vscale (hy * hz) ex).
  { unfold iArea. rewrite !HA, !plus_IZR. unfold ex. generalize (IZR i) (IZR j) (IZR k). clear. intros. vext; field. }
  split; [cbn; auto|]. unfold faceI. cbn [fs fnn fx]. split; [exact E|]. split; [apply (unit_of _ (hy * hz)); cbn; auto|]. rewrite !HD, !(affine_centre _ _ _ _ _ _ _ _ HA), !minus_IZR. unfold iFaceCentre. rewrite !HA, !plus_IZR. unfold ex.
  generalize (IZR i) (IZR j) (IZR k). clear. intros. split; vext; field.
Qed.
Lemma midJ i j k : midway ey (hz * hx) hy (faceJ X i j k) (D i (j - 1)%Z k) (D i j k).
Proof.
  destruct HB as (HA & Px & Py & Pz & A1 & A2 & A3). assert (E : jArea X i j k = vscale (hz * hx) ey).
  { unfold jArea. rewrite !HA, !plus_IZR. unfold ey. generalize (IZR i) (IZR j) (IZR k). clear. intros. vext; field. }
  split; [cbn; auto|]. unfold faceJ. cbn [fs fnn fx]. split; [exact E|]. split; [apply (unit_of _ (hz * hx)); cbn; auto|]. rewrite !HD, !(affine_centre _ _ _ _ _ _ _ _ HA), !minus_IZR. unfold jFaceCentre. rewrite !HA, !plus_IZR. unfold ey.
  generalize (IZR i) (IZR j) (IZR k). clear. intros. split; vext; field.
Qed.
Lemma midK i j k : midway ez (hx * hy) hz (faceK X i j k) (D i j (k - 1)%Z) (D i j k).
Proof.
  destruct HB as (HA & Px & Py & Pz & A1 & A2 & A3). assert (E : kArea X i j k = vscale (hx * hy) ez).
  { unfold kArea. rewrite !HA, !plus_IZR. unfold ez. generalize (IZR i) (IZR j) (IZR k). clear. intros. vext; field. }
  split; [cbn; auto|]. unfold faceK. cbn [fs fnn fx]. split; [exact E|]. split; [apply (unit_of _ (hx * hy)); cbn; auto|]. rewrite !HD, !(affine_centre _ _ _ _ _ _ _ _ HA), !minus_IZR. unfold kFaceCentre. rewrite !HA, !plus_IZR. unfold ez.
  generalize (IZR i) (IZR j) (IZR k). clear. intros. split; vext; field.
Qed.
End Grid.

(** every variable, whatever the stored cell gradients: the gradient across the face is the difference over the distance *)
Theorem C158_two_point_gradient : forall X o hx hy hz D i j k l, boxes X o hx hy hz -> onGrid X D ->
  dot3 (dampedGrad (faceI X i j k) (D (i - 1)%Z j k) (D i j k) l) (iArea X i j k) = hy * hz * (dq (D i j k) l - dq (D (i - 1)%Z j k) l) / hx /\
  dot3 (dampedGrad (faceJ X i j k) (D i (j - 1)%Z k) (D i j k) l) (jArea X i j k) = hz * hx * (dq (D i j k) l - dq (D i (j - 1)%Z k) l) / hy /\
  dot3 (dampedGrad (faceK X i j k) (D i j (k - 1)%Z) (D i j k) l) (kArea X i j k) = hx * hy * (dq (D i j k) l - dq (D i j (k - 1)%Z) l) / hz.
Proof.
  intros X o hx hy hz D i j k l HB HD. pose proof HB as (_ & Px & Py & Pz & _). split; [|split].
  - exact (midway_gradient _ _ _ _ _ _ l Px (midI X o hx hy hz D HB HD i j k)).
  - exact (midway_gradient _ _ _ _ _ _ l Py (midJ X o hx hy hz D HB HD i j k)).
  - exact (midway_gradient _ _ _ _ _ _ l Pz (midK X o hx hy hz D HB HD i j k)).
Qed.
Lemma midway_heat ne e S h f L Rc : (5 <= ne)%Z -> 0 < h -> midway e S h f L Rc -> atRest L -> atRest Rc -> sameMixture ne L Rc ->
  alphaDampingFlux ne f L Rc 4%Z = conducted S h L Rc.
Proof.
  intros Hn Hh HM (L1 & L2 & L3) (R1 & R2 & R3) SM. destruct (C72_energy_flux_partial ne f L Rc Hn) as (E & _). rewrite E.
  assert (V : dot3 (faceVelocity L Rc) (momentum (alphaDampingFlux ne f L Rc)) = 0).
  { unfold faceVelocity, mean. rewrite L1, L2, L3, R1, R2, R3. unfold dot3. cbn [vx vy vz fst snd]. lra. }
  rewrite V. unfold heatAndEnthalpy.
  assert (G : forall n, (0 <= n < ne - 4)%Z -> faceGrad (ne - 4) (dampedGrad f L Rc) (fs f) n = 0).
  { assert (G0 : forall n, (0 <= n < ne - 4 - 1)%Z -> dot3 (dampedGrad f L Rc (5 + n)%Z) (fs f) = 0).
    { intros n Hn'. rewrite (midway_gradient e S h f L Rc _ Hh HM), (SM (5 + n)%Z) by lia. field. lra. }
    intros n Hn'. unfold faceGrad, lastNeg. destruct (Z.eqb_spec n (ne - 4 - 1)); [|apply G0; lia]. rewrite (sumZ_zero _ _ _ G0). lra. }
  rewrite (sumZ_zero 0 (ne - 4)).
  - unfold fourier. rewrite (midway_gradient e S h f L Rc _ Hh HM). unfold conducted, mean, conductivity, temperature. field. lra.
  - intros n Hn'. unfold speciesFlux, fick. rewrite G by auto. unfold correction. rewrite (sumZ_zero 0 (ne - 4)) by (intros m Hm; rewrite G by auto; ring). ring.
Qed.
(** heat flows from the hotter cell to the colder one, in proportion to their difference *)
Theorem C158_hot_to_cold : forall X o hx hy hz D ne i j k, boxes X o hx hy hz -> onGrid X D -> (5 <= ne)%Z -> (forall p, atRest (D (fst (fst p)) (snd (fst p)) (snd p))) ->
  (sameMixture ne (D (i - 1)%Z j k) (D i j k) -> iF (blockDiffFlux alphaDampingFlux ne X D) i j k 4%Z = conducted (hy * hz) hx (D (i - 1)%Z j k) (D i j k)) /\
  (sameMixture ne (D i (j - 1)%Z k) (D i j k) -> jF (blockDiffFlux alphaDampingFlux ne X D) i j k 4%Z = conducted (hz * hx) hy (D i (j - 1)%Z k) (D i j k)) /\
  (sameMixture ne (D i j (k - 1)%Z) (D i j k) -> kF (blockDiffFlux alphaDampingFlux ne X D) i j k 4%Z = conducted (hx * hy) hz (D i j (k - 1)%Z) (D i j k)).
Proof.
  intros X o hx hy hz D ne i j k HB HD Hn HR. pose proof HB as (_ & Px & Py & Pz & _). unfold blockDiffFlux. cbn [iF jF kF]. split; [|split]; intros SM.
  - exact (midway_heat ne _ _ _ _ _ _ Hn Px (midI X o hx hy hz D HB HD i j k) (HR (i - 1, j, k)%Z) (HR (i, j, k)) SM).
  - exact (midway_heat ne _ _ _ _ _ _ Hn Py (midJ X o hx hy hz D HB HD i j k) (HR (i, j - 1, k)%Z) (HR (i, j, k)) SM).
  - exact (midway_heat ne _ _ _ _ _ _ Hn Pz (midK X o hx hy hz D HB HD i j k) (HR (i, j, k - 1)%Z) (HR (i, j, k)) SM).
Qed.
(** the energy a cell of still, uniformly mixed gas receives through its six faces *)
Theorem C158_received : forall X o hx hy hz D ne d ng J i j k, boxes X o hx hy hz -> onGrid X D -> (5 <= ne)%Z -> (forall p, atRest (D (fst (fst p)) (snd (fst p)) (snd p))) ->
  (forall p q, sameMixture ne (D (fst (fst p)) (snd (fst p)) (snd p)) (D (fst (fst q)) (snd (fst q)) (snd q))) -> inCC d ng ne i j k 4 = true -> J i j k <> 0 ->
  applyFlux d ng ne J (blockDiffFlux alphaDampingFlux ne X D) (fun _ _ _ _ => 0) i j k 4%Z = received D hx hy hz i j k / J i j k.
Proof.
  intros X o hx hy hz D ne d ng J i j k HB HD Hn HR SM IN HJ. unfold applyFlux. rewrite IN. cbv zeta.
  destruct (C158_hot_to_cold X o hx hy hz D ne i j k HB HD Hn HR) as (E1 & E2 & E3).
  destruct (C158_hot_to_cold X o hx hy hz D ne (i + 1) j k HB HD Hn HR) as (E4 & _). destruct (C158_hot_to_cold X o hx hy hz D ne i (j + 1) k HB HD Hn HR) as (_ & E5 & _).
  destruct (C158_hot_to_cold X o hx hy hz D ne i j (k + 1) HB HD Hn HR) as (_ & _ & E6).
  rewrite E1 by exact (SM (i - 1, j, k)%Z (i, j, k)). rewrite E2 by exact (SM (i, j - 1, k)%Z (i, j, k)). rewrite E3 by exact (SM (i, j, k - 1)%Z (i, j, k)).
  rewrite E4 by exact (SM (i + 1 - 1, j, k)%Z (i + 1, j, k)%Z). rewrite E5 by exact (SM (i, j + 1 - 1, k)%Z (i, j + 1, k)%Z). rewrite E6 by exact (SM (i, j, k + 1 - 1)%Z (i, j, k + 1)%Z).
  replace (i + 1 - 1)%Z with i by lia. replace (j + 1 - 1)%Z with j by lia. replace (k + 1 - 1)%Z with k by lia.
  unfold received, neighbours. cbn [map fold_right]. pose proof HB as (_ & Px & Py & Pz & _). unfold conducted. field. lra.
Qed.
(** the hottest cell never gains heat, the coldest never loses any *)
Theorem C158_hottest_never_gains : forall X o hx hy hz D ne d ng J i j k, boxes X o hx hy hz -> onGrid X D -> (5 <= ne)%Z -> (forall p, atRest (D (fst (fst p)) (snd (fst p)) (snd p))) ->
  (forall p q, sameMixture ne (D (fst (fst p)) (snd (fst p)) (snd p)) (D (fst (fst q)) (snd (fst q)) (snd q))) -> inCC d ng ne i j k 4 = true -> 0 < J i j k ->
  (forall p, 0 <= conductivity (D (fst (fst p)) (snd (fst p)) (snd p))) ->
  let gain := applyFlux d ng ne J (blockDiffFlux alphaDampingFlux ne X D) (fun _ _ _ _ => 0) i j k 4%Z in
  ((forall S h c, In (S, h, c) (neighbours D hx hy hz i j k) -> temperature c <= temperature (D i j k)) -> gain <= 0) /\
  ((forall S h c, In (S, h, c) (neighbours D hx hy hz i j k) -> temperature (D i j k) <= temperature c) -> 0 <= gain).
Proof.
  intros X o hx hy hz D ne d ng J i j k HB HD Hn HR SM IN HJ HK gain. unfold gain. rewrite (C158_received X o hx hy hz D ne d ng J i j k HB HD Hn HR SM IN) by lra.
  pose proof HB as (_ & Px & Py & Pz & A1 & A2 & A3). pose proof tiny_pos.
  assert (P : forall S h c, In (S, h, c) (neighbours D hx hy hz i j k) -> 0 <= (conductivity c + conductivity (D i j k)) / 2 * S / h).
  { intros S h c I. pose proof (HK (i, j, k)) as K0. cbn [fst snd] in K0. assert (T : 0 <= conductivity c /\ 0 < S /\ 0 < h).
    { unfold neighbours in I. cbn [In] in I. repeat (destruct I as [I|I]; [injection I as <- <- <-; split; [|split; lra]|]); [apply (HK (i - 1, j, k)%Z)|apply (HK (i + 1, j, k)%Z)|apply (HK (i, j - 1, k)%Z)|apply (HK (i, j + 1, k)%Z)|apply (HK (i, j, k - 1)%Z)|apply (HK (i, j, k + 1)%Z)|destruct I]. }
    destruct T as (T1 & T2 & T3). apply Rmult_le_pos; [apply Rmult_le_pos; lra|apply Rlt_le, Rinv_0_lt_compat; auto]. }
  assert (Q : forall S h c, conducted S h c (D i j k) = (conductivity c + conductivity (D i j k)) / 2 * S / h * (temperature c - temperature (D i j k))) by (intros; unfold conducted, Rdiv; ring).
  assert (I : 0 < / J i j k) by (apply Rinv_0_lt_compat; auto). unfold received. clear - P Q I.
  set (l := neighbours D hx hy hz i j k) in *. clearbody l. set (s := fold_right Rplus 0 _). split; intros T.
  - enough (s <= 0) by (unfold Rdiv; nra). unfold s. clear s. induction l as [|[[A h] c] l IH]; cbn [map fold_right]; [lra|]. pose proof (P _ _ _ (or_introl eq_refl)). pose proof (T _ _ _ (or_introl eq_refl)).
    assert (fold_right Rplus 0 (map (fun '(A, h, c) => conducted A h c (D i j k)) l) <= 0) by (apply IH; intros; [eapply P|eapply T]; right; eauto). rewrite Q. set (w := (conductivity c + _) / 2 * A / h) in *. clearbody w. nra.
  - enough (0 <= s) by (unfold Rdiv; nra). unfold s. clear s. induction l as [|[[A h] c] l IH]; cbn [map fold_right]; [lra|]. pose proof (P _ _ _ (or_introl eq_refl)). pose proof (T _ _ _ (or_introl eq_refl)).
    assert (0 <= fold_right Rplus 0 (map (fun '(A, h, c) => conducted A h c (D i j k)) l)) by (apply IH; intros; [eapply P|eapply T]; right; eauto). rewrite Q. set (w := (conductivity c + _) / 2 * A / h) in *. clearbody w. nra.
Qed.

(** in a short enough step the temperature of the cell stays within those of the cell and its neighbours *)
Theorem C158_step_between : forall X o hx hy hz D ne d ng J i j k heat dt lo hi, boxes X o hx hy hz -> onGrid X D -> (5 <= ne)%Z -> (forall p, atRest (D (fst (fst p)) (snd (fst p)) (snd p))) ->
  (forall p q, sameMixture ne (D (fst (fst p)) (snd (fst p)) (snd p)) (D (fst (fst q)) (snd (fst q)) (snd q))) -> inCC d ng ne i j k 4 = true -> 0 < J i j k ->
  (forall p, 0 <= conductivity (D (fst (fst p)) (snd (fst p)) (snd p))) -> 0 < heat -> 0 <= dt -> dt * exchange D hx hy hz i j k <= heat * J i j k ->
  lo <= temperature (D i j k) <= hi -> (forall S h c, In (S, h, c) (neighbours D hx hy hz i j k) -> lo <= temperature c <= hi) ->
  lo <= temperature (D i j k) + dt * applyFlux d ng ne J (blockDiffFlux alphaDampingFlux ne X D) (fun _ _ _ _ => 0) i j k 4%Z / heat <= hi.
Proof.
  intros X o hx hy hz D ne d ng J i j k heat dt lo hi HB HD Hn HR SM IN HJ HK Hc Ht Hs HT HN. rewrite (C158_received X o hx hy hz D ne d ng J i j k HB HD Hn HR SM IN) by lra.
  pose proof HB as (_ & Px & Py & Pz & A1 & A2 & A3). pose proof tiny_pos.
  assert (P : forall S h c, In (S, h, c) (neighbours D hx hy hz i j k) -> 0 <= (conductivity c + conductivity (D i j k)) / 2 * S / h).
  { intros S h c I. pose proof (HK (i, j, k)) as K0. cbn [fst snd] in K0. assert (T : 0 <= conductivity c /\ 0 < S /\ 0 < h).
    { unfold neighbours in I. cbn [In] in I. repeat (destruct I as [I|I]; [injection I as <- <- <-; split; [|split; lra]|]); [apply (HK (i - 1, j, k)%Z)|apply (HK (i + 1, j, k)%Z)|apply (HK (i, j - 1, k)%Z)|apply (HK (i, j + 1, k)%Z)|apply (HK (i, j, k - 1)%Z)|apply (HK (i, j, k + 1)%Z)|destruct I]. }
    destruct T as (T1 & T2 & T3). apply Rmult_le_pos; [apply Rmult_le_pos; lra|apply Rlt_le, Rinv_0_lt_compat; auto]. }
  assert (Q : forall S h c, conducted S h c (D i j k) = (conductivity c + conductivity (D i j k)) / 2 * S / h * (temperature c - temperature (D i j k))) by (intros; unfold conducted, Rdiv; ring).
  assert (B : exchange D hx hy hz i j k * (lo - temperature (D i j k)) <= received D hx hy hz i j k <= exchange D hx hy hz i j k * (hi - temperature (D i j k))).
  { unfold received, exchange. clear - P Q HN HT. set (l := neighbours D hx hy hz i j k) in *. clearbody l. induction l as [|[[A h] c] l IH]; cbn [map fold_right]; [lra|].
    pose proof (P _ _ _ (or_introl eq_refl)). pose proof (HN _ _ _ (or_introl eq_refl)). assert (IH' := IH ltac:(intros; eapply HN; right; eauto) ltac:(intros; eapply P; right; eauto)). clear IH. rewrite Q.
    set (w := (conductivity c + _) / 2 * A / h) in *. clearbody w. set (e := fold_right Rplus 0 (map (fun '(A, h, c) => (conductivity c + conductivity (D i j k)) / 2 * A / h) l)) in *. set (r := fold_right Rplus 0 (map (fun '(A, h, c) => conducted A h c (D i j k)) l)) in *. clearbody e r. nra. }
  set (T := temperature (D i j k)) in *. set (E := exchange D hx hy hz i j k) in *. set (r := received D hx hy hz i j k) in *.
  assert (HE : 0 <= E). { unfold E, exchange. clear - P. set (l := neighbours D hx hy hz i j k) in *. clearbody l. induction l as [|[[A h] c] l IH]; cbn [map fold_right]; [lra|].
    pose proof (P _ _ _ (or_introl eq_refl)). assert (IH' := IH ltac:(intros; eapply P; right; eauto)). cbv beta iota. lra. }
  clearbody T E r. clear - HJ Hc Ht Hs HT B HE.
  set (x := dt / (heat * J i j k)). assert (Hp : 0 < heat * J i j k) by nra. assert (X0 : 0 <= x) by (apply Rmult_le_pos; [auto|apply Rlt_le, Rinv_0_lt_compat; auto]).
  assert (X1 : x * E <= 1). { apply Rmult_le_reg_r with (heat * J i j k); auto. replace (x * E * (heat * J i j k)) with (dt * E) by (unfold x; field; lra). lra. }
  replace (dt * (r / J i j k) / heat) with (x * r) by (unfold x; field; lra). clearbody x.
  assert (x * (E * (lo - T)) <= x * r <= x * (E * (hi - T))) by (split; apply Rmult_le_compat_l; lra). split; nra.
Qed.

(** ** two species: each flows from where there is more of it to where there is less *)
Theorem C158_binary : forall e S h f L Rc, 0 < h -> 0 <= S -> midway e S h f L Rc -> 0 <= mean dRho L Rc -> 0 <= faceD L Rc 0 -> 0 <= faceD L Rc 1 ->
  0 <= mean (fun c => dq c 5%Z) L Rc <= 1 ->
  exists w, 0 <= w /\ alphaDampingFlux 6 f L Rc 5%Z = w * (dq L 5%Z - dq Rc 5%Z).
Proof.
  intros e S h f L Rc Hh HS HM Hr D0 D1 HY. set (Y := mean (fun c => dq c 5%Z) L Rc) in *. exists (mean dRho L Rc * (faceD L Rc 0 * (1 - Y) + faceD L Rc 1 * Y) * S / h). split.
  - apply Rmult_le_pos; [|apply Rlt_le, Rinv_0_lt_compat; auto]. apply Rmult_le_pos; auto. apply Rmult_le_pos; auto. assert (0 <= faceD L Rc 0 * (1 - Y)) by (apply Rmult_le_pos; lra). assert (0 <= faceD L Rc 1 * Y) by (apply Rmult_le_pos; lra). lra.
  - destruct (C71_alphaDamping_species_close 6 f L Rc ltac:(lia)) as (_ & E & _). specialize (E 0%Z ltac:(lia)). change (5 + 0)%Z with 5%Z in E. rewrite E. unfold speciesFlux, fick, correction. change (6 - 4)%Z with 2%Z.
    unfold sumZ. rewrite zr02. cbn [map fold_right]. unfold faceGrad, lastNeg. change (2 - 1)%Z with 1%Z. change (0 =? 1)%Z with false. change (1 =? 1)%Z with true. cbn [negb]. cbv iota. unfold sumZ. change (zrange 0 1) with [0%Z]. cbn [map fold_right]. change (5 + 0)%Z with 5%Z.
    rewrite (midway_gradient e S h f L Rc 5 Hh HM). unfold faceY, withLast. change (0 =? 2 - 1)%Z with false. cbv iota. change (5 + 0)%Z with 5%Z. fold Y. clearbody Y. field. lra.
Qed.

(** ** where the cells are not evenly spaced along the axes heat can flow from the colder cell to the hotter one *)
Definition still (X : nodes) (T : Z -> Z -> Z -> R) (i j k : Z) : dcell :=
  mkD (cellCentre X i j k) 1 (fun l => if (l =? 4)%Z then T i j k else 0) (fun l => if (l =? 4)%Z then dq2FD X T i j k else vzero) (fun _ => 1) (fun _ => 0).
Lemma still_heat X T i j k f i' j' k' : alphaDampingFlux 5 f (still X T i j k) (still X T i' j' k') 4%Z = - dot3 (dampedGrad f (still X T i j k) (still X T i' j' k') 4%Z) (fs f).
Proof.
  destruct (C72_energy_flux_partial 5 f (still X T i j k) (still X T i' j' k') ltac:(lia)) as (E & _). rewrite E. unfold heatAndEnthalpy, faceVelocity, fourier, mean, still. cbn [dq dt dh]. change (1 =? 4)%Z with false. change (2 =? 4)%Z with false. change (3 =? 4)%Z with false. cbv iota.
  unfold sumZ. change (zrange 0 (5 - 4)) with [0%Z]. cbn [map fold_right]. unfold faceH, mean. cbn [dh]. unfold dot3 at 1. cbn [vx vy vz fst snd]. field.
Qed.
(** a row of cells 1 wide up to x = 1 and 3 wide beyond *)
Definition stretched : nodes := fun i j k => (if (i <=? 1)%Z then IZR i else 3 * IZR i - 2, IZR j, IZR k).
Definition steep (i j k : Z) : R := if (i <=? -1)%Z then 299 else if (i =? 0)%Z then 300 else if (i =? 1)%Z then 3001/10 else 330.
Lemma steep_rises i i' j k j' k' : (i <= i')%Z -> steep i j k <= steep i' j' k'.
Proof. intros H. unfold steep. destruct (Z.leb_spec i (-1)), (Z.leb_spec i' (-1)), (Z.eqb_spec i 0), (Z.eqb_spec i' 0), (Z.eqb_spec i 1), (Z.eqb_spec i' 1); try lia; lra. Qed.
Lemma stretched_box i j k w : (i = 0 /\ w = 1 \/ i = 1 /\ w = 3)%Z -> boxCell stretched i j k (stretched i j k) (IZR w, 0, 0) (0, 1, 0) (0, 0, 1).
Proof.
  intros H u v w' Hu Hv Hw. assert (U : (u = 0 \/ u = 1)%Z) by lia. unfold stretched. rewrite !plus_IZR. destruct H as [[-> ->]|[-> ->]]; destruct U as [-> | ->].
  - change (0 + 0 <=? 1)%Z with true. change (0 <=? 1)%Z with true. cbv iota. vext; rewrite ?plus_IZR; ring.
  - change (0 + 1 <=? 1)%Z with true. change (0 <=? 1)%Z with true. cbv iota. vext; rewrite ?plus_IZR; ring.
  - change (1 + 0 <=? 1)%Z with true. change (1 <=? 1)%Z with true. cbv iota. vext; rewrite ?plus_IZR; ring.
  - change (1 + 1 <=? 1)%Z with false. change (1 <=? 1)%Z with true. cbv iota. vext; rewrite ?plus_IZR; ring.
Qed.
Lemma stretched_grad T i w : (i = 0 /\ w = 1 \/ i = 1 /\ w = 3)%Z -> (forall i j k j' k', T i j k = T i j' k') -> dq2FD stretched T i 0 0 = ((T (i + 1)%Z 0%Z 0%Z - T (i - 1)%Z 0%Z 0%Z) / (2 * IZR w), 0, 0).
Proof.
  intros H HT. assert (P : 0 < IZR w) by (apply IZR_lt; lia). pose proof (stretched_box i 0 0 w H) as B. assert (V : volume stretched i 0 0 = IZR w).
  { rewrite (C20_volume _ _ _ _ _ _ _ _ B); [vcomp; ring|]. assert (1 <= IZR w) by (apply IZR_le; lia). unfold tiny. vcomp. lra. }
  unfold dq2FD. cbv zeta. unfold gradE, gradN, gradC. rewrite V, (box_E _ _ _ _ _ _ _ _ B), (box_N _ _ _ _ _ _ _ _ B), (box_C _ _ _ _ _ _ _ _ B).
  rewrite (HT i (0 + 1)%Z 0%Z (0 - 1)%Z 0%Z), (HT i 0%Z (0 + 1)%Z 0%Z (0 - 1)%Z). vext; field; lra.
Qed.
Theorem C158_stretched_refuted : (forall i i' j k, (i <= i')%Z -> steep i j k <= steep i' j k) /\ steep 0 0 0 < steep 1 0 0 /\
  0 < alphaDampingFlux 5 (faceI stretched 1 0 0) (still stretched steep 0 0 0) (still stretched steep 1 0 0) 4%Z.
Proof.
  split; [intros; now apply steep_rises|]. split; [unfold steep; cbn; lra|]. rewrite still_heat.
  assert (T0 : forall i j k j' k', steep i j k = steep i j' k') by reflexivity.
  assert (A : iArea stretched 1 0 0 = (1, 0, 0)) by (unfold iArea, stretched; cbn [Z.leb Z.compare Z.add Pos.add Pos.compare Pos.compare_cont]; vext; field).
  assert (FN : faceNormal (1, 0, 0) = (1, 0, 0)). { unfold faceNormal, faceSize, clip. cbn [vx vy vz fst snd]. replace (1 * 1 + 0 * 0 + 0 * 0) with 1 by ring. rewrite sqrt_1, Rmax_left by (unfold tiny; lra). f_equal; [f_equal|]; field. }
  assert (C0 : cellCentre stretched 0 0 0 = (1/2, 1/2, 1/2)) by (unfold cellCentre, stretched; cbn [Z.leb Z.compare Z.add Pos.add Pos.compare Pos.compare_cont]; vext; field).
  assert (C1 : cellCentre stretched 1 0 0 = (5/2, 1/2, 1/2)) by (unfold cellCentre, stretched; cbn [Z.leb Z.compare Z.add Pos.add Pos.compare Pos.compare_cont]; vext; field).
  assert (FC : iFaceCentre stretched 1 0 0 = (1, 1/2, 1/2)) by (unfold iFaceCentre, stretched; cbn [Z.leb Z.compare Z.add Pos.add Pos.compare Pos.compare_cont]; vext; field).
  assert (Sm : steep (-1) 0 0 = 299) by reflexivity. assert (S0 : steep 0 0 0 = 300) by reflexivity. assert (S1 : steep 1 0 0 = 3001/10) by reflexivity. assert (S2 : steep 2 0 0 = 330) by reflexivity.
  assert (G0 : dq2FD stretched steep 0 0 0 = (11/20, 0, 0)). { rewrite (stretched_grad steep 0 1 (or_introl (conj eq_refl eq_refl)) T0). change (0 + 1)%Z with 1%Z. change (0 - 1)%Z with (-1)%Z. rewrite Sm, S1. vext; field. }
  assert (G1 : dq2FD stretched steep 1 0 0 = (5, 0, 0)). { rewrite (stretched_grad steep 1 3 (or_intror (conj eq_refl eq_refl)) T0). change (1 + 1)%Z with 2%Z. change (1 - 1)%Z with 0%Z. rewrite S0, S2. vext; field. }
  unfold faceI. rewrite A, FN, FC. unfold dampedGrad, magEdotN, extrapolate, avg, still. cbn [dX dG dq fs fnn fx Z.eqb Pos.eqb]. cbv iota. rewrite G0, G1, C0, C1, S0, S1. vcomp.
  replace (sqrt _) with 2; [lra|].
  replace (((5 / 2 - 1 / 2) * 1) ^ 2 + ((1 / 2 - 1 / 2) * 0) ^ 2 + ((1 / 2 - 1 / 2) * 0) ^ 2) with (2 * 2) by field. rewrite sqrt_square; lra.
Qed.
(** a grid of unit cubes turned about z by the angle whose cosine is 3/5 *)
Definition turned : nodes := fun i j k => (3/5 * IZR i - 4/5 * IZR j, 4/5 * IZR i + 3/5 * IZR j, IZR k).
Definition staircase (i j k : Z) : R := if (i <=? -1)%Z then 2981/10 else if (i =? 0)%Z then 300 else if (i =? 1)%Z then 3001/10 else 302.
Lemma turned_affine : affineGrid turned (0, 0, 0) (3/5, 4/5, 0) (-4/5, 3/5, 0) (0, 0, 1).
Proof. intros i j k. unfold turned. vext; field. Qed.
Theorem C158_oblique_refuted : affineGrid turned (0, 0, 0) (3/5, 4/5, 0) (-4/5, 3/5, 0) (0, 0, 1) /\ (forall i i' j k, (i <= i')%Z -> staircase i j k <= staircase i' j k) /\ staircase 0 0 0 < staircase 1 0 0 /\
  0 < alphaDampingFlux 5 (faceI turned 1 0 0) (still turned staircase 0 0 0) (still turned staircase 1 0 0) 4%Z.
Proof.
  split; [exact turned_affine|]. split; [intros i i' j k H; unfold staircase; destruct (Z.leb_spec i (-1)), (Z.leb_spec i' (-1)), (Z.eqb_spec i 0), (Z.eqb_spec i' 0), (Z.eqb_spec i 1), (Z.eqb_spec i' 1); try lia; lra|].
  split; [unfold staircase; cbn; lra|]. rewrite still_heat.
  assert (A : iArea turned 1 0 0 = (3/5, 4/5, 0)) by (unfold iArea, turned; cbn [Z.add Pos.add]; vext; field).
  assert (FN : faceNormal (3/5, 4/5, 0) = (3/5, 4/5, 0)). { unfold faceNormal, faceSize, clip. cbn [vx vy vz fst snd]. replace (3/5 * (3/5) + 4/5 * (4/5) + 0 * 0) with 1 by field. rewrite sqrt_1, Rmax_left by (unfold tiny; lra). f_equal; [f_equal|]; field. }
  assert (CC : forall i, cellCentre turned i 0 0 = (3/5 * (IZR i + 1/2) - 2/5, 4/5 * (IZR i + 1/2) + 3/10, 1/2)). { intros i. rewrite (affine_centre _ _ _ _ _ _ _ _ turned_affine). vext; field. }
  assert (FC : iFaceCentre turned 1 0 0 = (1/5, 11/10, 1/2)) by (unfold iFaceCentre, turned; cbn [Z.add Pos.add]; vext; field).
  assert (G : forall i, dq2FD turned staircase i 0 0 = vscale ((staircase (i + 1)%Z 0%Z 0%Z - staircase (i - 1)%Z 0%Z 0%Z) / 2) (3/5, 4/5, 0)).
  { intros i. pose proof (affine_box _ _ _ _ _ i 0 0 turned_affine) as B. assert (V : volume turned i 0 0 = 1) by (rewrite (C20_volume _ _ _ _ _ _ _ _ B); [vcomp; field|unfold tiny; vcomp; lra]).
    unfold dq2FD. cbv zeta. unfold gradE, gradN, gradC. rewrite V, (box_E _ _ _ _ _ _ _ _ B), (box_N _ _ _ _ _ _ _ _ B), (box_C _ _ _ _ _ _ _ _ B).
    change (staircase i (0 + 1) 0) with (staircase i 0 0). change (staircase i (0 - 1) 0) with (staircase i 0 0). change (staircase i 0 (0 + 1)) with (staircase i 0 0). change (staircase i 0 (0 - 1)) with (staircase i 0 0). vext; field. }
  unfold faceI. rewrite A, FN, FC. unfold dampedGrad, magEdotN, extrapolate, avg, still. cbn [dX dG dq fs fnn fx Z.eqb Pos.eqb]. cbv iota. rewrite !G, !CC. vcomp.
  change (0 + 1)%Z with 1%Z. change (0 - 1)%Z with (-1)%Z. change (1 + 1)%Z with 2%Z. change (1 - 1)%Z with 0%Z.
  replace (staircase (-1) 0 0) with (2981/10) by reflexivity. replace (staircase 0 0 0) with 300 by reflexivity. replace (staircase 1 0 0) with (3001/10) by reflexivity. replace (staircase 2 0 0) with 302 by reflexivity.
  set (m := sqrt _). assert (M : 0 < m /\ m < 3/4).
  { unfold m. replace (_ + _) with (337/625) by field. split; [apply sqrt_lt_R0; lra|]. rewrite <- (sqrt_square (3/4)) by lra. apply sqrt_lt_1_alt. lra. }
  destruct M as [M0 M1]. clearbody m. assert (4/3 < 1 / m). { apply Rmult_lt_reg_r with m; auto. unfold Rdiv at 2. rewrite Rmult_assoc, Rinv_l by lra. lra. }
  set (n := 1 / m) in *. clearbody n. lra.
Qed.
Definition exBoxes : nodes := fun i j k => (2 * IZR i, IZR j, 3 * IZR k).
Definition exHeat (i j k : Z) : dcell := still exBoxes (fun i j k => if (i =? 1)%Z then if (j =? 1)%Z then if (k =? 1)%Z then 400 else 300 else 300 else 300) i j k.
Example C158_nonvacuous : boxes exBoxes (0, 0, 0) 2 1 3 /\ onGrid exBoxes exHeat /\ (forall p, atRest (exHeat (fst (fst p)) (snd (fst p)) (snd p))) /\ inCC (mkDims 2 2 2) 1 5 1 1 1 4 = true /\
  received exHeat 2 1 3 1 1 1 = - (2 * (150 + 600 + 200/3)) /\ temperature (exHeat 0 1 1) < temperature (exHeat 1 1 1).
Proof.
  split; [|split; [|split; [|split; [|split]]]].
  - split; [intros i j k; unfold exBoxes; vext; ring|]. unfold tiny. repeat split; lra.
  - intros i j k. reflexivity.
  - intros p. repeat split.
  - reflexivity.
  - unfold received, neighbours, conducted, temperature, conductivity, exHeat, still. cbn. field.
  - unfold temperature, exHeat, still. cbn. lra.
Qed.
Print Assumptions C158_step_between.
Print Assumptions C158_oblique_refuted.
