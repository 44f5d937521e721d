(** C159: with the variable time step and a small enough CFL limit the first-order upwind schemes make no new extrema. *)
From Coq Require Import Reals ZArith List Bool Lra Lia Psatz.
From Verif Require Import L_Vec M_Topology M_Halo M_Grid M_Metrics S_Metrics P_Metrics M_Flux S_Flux P_Flux M_FluxKernels S_FluxKernels P_FluxKernels P_FluxSym P_FreeStream S_Upwind P_Upwind M_Control S_Control P_Control P_Residual S_Stability.
Import ListNotations.
Open Scope R_scope.

(** a rectangular cell *)
Section Cell.
Variable b : runBlock.
Variables i j k : Z.
Variables dx dy dz : R.
Hypothesis HR : exists x y z : Z -> R, (forall u v w, (0 <= u <= 1)%Z -> (0 <= v <= 1)%Z -> (0 <= w <= 1)%Z -> rb_X b (i + u)%Z (j + v)%Z (k + w)%Z = (x (i + u)%Z, y (j + v)%Z, z (k + w)%Z)) /\
  dx = x (i + 1)%Z - x (i + 0)%Z /\ dy = y (j + 1)%Z - y (j + 0)%Z /\ dz = z (k + 1)%Z - z (k + 0)%Z.
Hypothesis Px : 0 < dx.
Hypothesis Py : 0 < dy.
Hypothesis Pz : 0 < dz.
Hypothesis Tx : tiny <= dy * dz.
Hypothesis Ty : tiny <= dz * dx.
Hypothesis Tz : tiny <= dx * dy.
Ltac corners := let x := fresh "x" in let y := fresh "y" in let z := fresh "z" in let H := fresh in
  destruct HR as (x & y & z & H & Ex & Ey & Ez);
  pose proof (H 0 0 0 ltac:(lia) ltac:(lia) ltac:(lia))%Z as C000; pose proof (H 0 0 1 ltac:(lia) ltac:(lia) ltac:(lia))%Z as C001; pose proof (H 0 1 0 ltac:(lia) ltac:(lia) ltac:(lia))%Z as C010; pose proof (H 0 1 1 ltac:(lia) ltac:(lia) ltac:(lia))%Z as C011;
  pose proof (H 1 0 0 ltac:(lia) ltac:(lia) ltac:(lia))%Z as C100; pose proof (H 1 0 1 ltac:(lia) ltac:(lia) ltac:(lia))%Z as C101; pose proof (H 1 1 0 ltac:(lia) ltac:(lia) ltac:(lia))%Z as C110; pose proof (H 1 1 1 ltac:(lia) ltac:(lia) ltac:(lia))%Z as C111; clear H;
  rewrite ?Z.add_0_r in *.
Lemma rectAreas : iArea (rb_X b) i j k = (dy * dz, 0, 0) /\ iArea (rb_X b) (i + 1) j k = (dy * dz, 0, 0) /\
  jArea (rb_X b) i j k = (0, dz * dx, 0) /\ jArea (rb_X b) i (j + 1) k = (0, dz * dx, 0) /\ kArea (rb_X b) i j k = (0, 0, dx * dy) /\ kArea (rb_X b) i j (k + 1) = (0, 0, dx * dy).
Proof.
  corners. unfold iArea, jArea, kArea. rewrite C000, C001, C010, C011, C100, C101, C110, C111. rewrite Ex, Ey, Ez. repeat split; vext; field.
Qed.
Lemma rectWidth a : width (readsOf b) a i j k = match a with AI => dx | AJ => dy | AK => dz end.
Proof.
  corners. unfold width, norm, dot, centreOf, nextOf, readsOf. destruct a; cbn [cb_ic cb_jc cb_kc]; unfold iFaceCentre, jFaceCentre, kFaceCentre; rewrite C000, C001, C010, C011, C100, C101, C110, C111; unfold vsub, vadd, vscale, vx, vy, vz; cbn [fst snd].
  - transitivity (sqrt (dx * dx)); [f_equal; rewrite Ex; field|apply sqrt_square; lra].
  - transitivity (sqrt (dy * dy)); [f_equal; rewrite Ey; field|apply sqrt_square; lra].
  - transitivity (sqrt (dz * dz)); [f_equal; rewrite Ez; field|apply sqrt_square; lra].
Qed.
Lemma rectVolume : dx * dy * dz <= volume (rb_X b) i j k.
Proof.
  destruct rectAreas as (_ & A1 & _ & A2 & _ & A3). unfold volume, clip. eapply Rle_trans; [|apply Rmax_l]. unfold rawVolume. rewrite A1, A2, A3.
  corners. rewrite C000, C111. unfold vsub, vadd, vx, vy, vz; cbn [fst snd]. rewrite <- Ex, <- Ey, <- Ez. right. field.
Qed.
Lemma axisFace s : tiny <= s -> faceSize (s, 0, 0) = s /\ faceSize (0, s, 0) = s /\ faceSize (0, 0, s) = s /\
  faceNormal (s, 0, 0) = (1, 0, 0) /\ faceNormal (0, s, 0) = (0, 1, 0) /\ faceNormal (0, 0, s) = (0, 0, 1).
Proof.
  intros T. pose proof tiny_pos as P. assert (S : sqrt (s * s) = s) by (apply sqrt_square; lra).
  assert (A : faceSize (s, 0, 0) = s /\ faceSize (0, s, 0) = s /\ faceSize (0, 0, s) = s).
  { unfold faceSize, clip, vx, vy, vz; cbn [fst snd]. replace (s * s + 0 * 0 + 0 * 0) with (s * s) by ring. replace (0 * 0 + s * s + 0 * 0) with (s * s) by ring. replace (0 * 0 + 0 * 0 + s * s) with (s * s) by ring. rewrite S. rewrite Rmax_left by lra. auto. }
  destruct A as (A1 & A2 & A3). split; [auto|]. split; [auto|]. split; [auto|]. unfold faceNormal. rewrite A1, A2, A3. unfold vx, vy, vz; cbn [fst snd]. repeat split; vext; field; lra.
Qed.
Definition speedAlong (c : cell) (a : haxis) : R := Rabs (match a with AI => c_u c | AJ => c_v c | AK => c_w c end).
Lemma rectRadius a : usedRadius (readsOf b) a i j k = (speedAlong (rb_c b i j k) a + c_c (rb_c b i j k)) / match a with AI => dx | AJ => dy | AK => dz end.
Proof.
  unfold usedRadius. rewrite rectWidth. f_equal. f_equal. unfold componentSpeed, norm, dot, meanN, cellVel, normalOf, nextOf, readsOf.
  destruct rectAreas as (A1 & A2 & A3 & A4 & A5 & A6). destruct (axisFace _ Tx) as (_ & _ & _ & N1 & _). destruct (axisFace _ Ty) as (_ & _ & _ & _ & N2 & _). destruct (axisFace _ Tz) as (_ & _ & _ & _ & _ & N3).
  destruct a; cbn [cb_in cb_jn cb_kn cb_q]; rewrite ?A1, ?A2, ?A3, ?A4, ?A5, ?A6, ?N1, ?N2, ?N3; unfold vadd, vscale, vx, vy, vz; cbn [fst snd]; unfold speedAlong, c_u, c_v, c_w; rewrite <- sqrt_Rsqr_abs; f_equal; unfold Rsqr; field.
Qed.
End Cell.

Lemma rect_at b i j k : rectangular b -> interior (rb_d b) (rb_ng b) i j k ->
  exists dx dy dz, (exists x y z : Z -> R, (forall u v w, (0 <= u <= 1)%Z -> (0 <= v <= 1)%Z -> (0 <= w <= 1)%Z -> rb_X b (i + u)%Z (j + v)%Z (k + w)%Z = (x (i + u)%Z, y (j + v)%Z, z (k + w)%Z)) /\
    dx = x (i + 1)%Z - x (i + 0)%Z /\ dy = y (j + 1)%Z - y (j + 0)%Z /\ dz = z (k + 1)%Z - z (k + 0)%Z) /\
  0 < dx /\ 0 < dy /\ 0 < dz /\ tiny <= dy * dz /\ tiny <= dz * dx /\ tiny <= dx * dy.
Proof.
  intros (x & y & z & HX & HP) HI. exists (x (i + 1)%Z - x i), (y (j + 1)%Z - y j), (z (k + 1)%Z - z k). destruct (HP i j k HI) as (P1 & P2 & P3 & P4 & P5 & P6).
  split; [|do 5 (split; [lra|]); lra].
  exists x, y, z. rewrite !Z.add_0_r. split; [|auto]. intros u v w Hu Hv Hw. apply HX. unfold interior in HI. lia.
Qed.
(** what the step satisfies for every cell of the run *)
Lemma step_radius cfg rs : variableTimeStep cfg = true -> 0 < maxCFL cfg -> 0 < maxDt cfg -> soundRun rs ->
  let dt := fst (getDtMaxCFL cfg (reads rs)) in 0 < dt /\
  forall b i j k, inRun b rs -> interior (rb_d b) (rb_ng b) i j k -> forall a,
    dt * (speedAlong (rb_c b i j k) a + c_c (rb_c b i j k)) <= maxCFL cfg * width (readsOf b) a i j k.
Proof.
  intros HV HC HD (HS & HB). pose proof (C34_step_limits cfg (reads rs) HV HC HD HS) as L. destruct (getDtMaxCFL cfg (reads rs)) as [dt [[cA cC] cR]]. cbn [fst]. destruct L as ((D1 & D2) & _ & L). split; [auto|].
  intros b i j k Hb HI a. destruct (HB b Hb) as (HRe & HA & _). destruct (rect_at b i j k HRe HI) as (dx & dy & dz & HX & Px & Py & Pz & Tx & Ty & Tz).
  destruct Hb as (mb & t & Hm & Ht). destruct (L (map (fun bt => (readsOf (fst bt), snd bt)) mb) (readsOf b) t) with (a := a) (i := i) (j := j) (k := k) as (_ & U); auto.
  { unfold reads. apply in_map_iff. eauto. } { apply in_map_iff. exists (b, t). auto. }
  rewrite (rectRadius b i j k dx dy dz HX Px Py Pz Tx Ty Tz) in U. rewrite (rectWidth b i j k dx dy dz HX Px Py Pz).
  set (s := speedAlong (rb_c b i j k) a + c_c (rb_c b i j k)) in *. clearbody s.
  set (w := match a with AI => dx | AJ => dy | AK => dz end) in *. assert (W : 0 < w) by (unfold w; destruct a; auto).
  apply (Rmult_le_compat_r w) in U; [|lra]. replace (dt * (s / w) * w) with (dt * s) in U by (field; lra). lra.
Qed.
(** the speed through a face of a rectangular cell *)
Lemma face_axis b i j k dx dy dz (HX : exists x y z : Z -> R, (forall u v w, (0 <= u <= 1)%Z -> (0 <= v <= 1)%Z -> (0 <= w <= 1)%Z -> rb_X b (i + u)%Z (j + v)%Z (k + w)%Z = (x (i + u)%Z, y (j + v)%Z, z (k + w)%Z)) /\
    dx = x (i + 1)%Z - x (i + 0)%Z /\ dy = y (j + 1)%Z - y (j + 0)%Z /\ dz = z (k + 1)%Z - z (k + 0)%Z) : tiny <= dy * dz -> tiny <= dz * dx -> tiny <= dx * dy ->
  forall g, (In g [geoI (rb_X b) i j k; geoI (rb_X b) (i + 1) j k] -> gS g = dy * dz /\ forall c, Rabs (faceNormalVelocity g c) = speedAlong c AI) /\
            (In g [geoJ (rb_X b) i j k; geoJ (rb_X b) i (j + 1) k] -> gS g = dz * dx /\ forall c, Rabs (faceNormalVelocity g c) = speedAlong c AJ) /\
            (In g [geoK (rb_X b) i j k; geoK (rb_X b) i j (k + 1)] -> gS g = dx * dy /\ forall c, Rabs (faceNormalVelocity g c) = speedAlong c AK).
Proof.
  intros Tx Ty Tz g. destruct (rectAreas b i j k dx dy dz HX) as (A1 & A2 & A3 & A4 & A5 & A6).
  destruct (axisFace _ Tx) as (S1 & _ & _ & N1 & _). destruct (axisFace _ Ty) as (_ & S2 & _ & _ & N2 & _). destruct (axisFace _ Tz) as (_ & _ & S3 & _ & _ & N3).
  unfold geoI, geoJ, geoK. rewrite A1, A2, A3, A4, A5, A6, S1, S2, S3, N1, N2, N3.
  split; [|split]; intros [<- | [<- | []]]; cbn [gS]; (split; [reflexivity|]); intros c; unfold faceNormalVelocity, speedAlong, vel; cbn [gn]; f_equal; vcomp; ring.
Qed.
Lemma gas_sound c : gasState c -> 0 < c_c c. Proof. intros (_ & _ & H). exact H. Qed.
Lemma speed_pos c a : 0 <= speedAlong c a. Proof. unfold speedAlong. apply Rabs_pos. Qed.

(** C159, Rusanov.  The time step the code chooses keeps a first-order Euler step free of new extrema if the CFL limit of the
    configuration is at most 1/(3(1+r)), r the largest ratio of the widths of neighbouring cells. *)
Theorem C159_rusanov : forall cfg r rs b i j k, variableTimeStep cfg = true -> 0 < maxCFL cfg -> 0 < maxDt cfg -> 0 <= r -> 3 * (1 + r) * maxCFL cfg <= 1 ->
  soundRun rs -> inRun b rs -> interior (rb_d b) (rb_ng b) i j k -> (forall p, In p (tl (around i j k)) -> fromRun r rs b i j k p) ->
  noNewExtrema (fst (getDtMaxCFL cfg (reads rs))) (volume (rb_X b)) (blockFlux rusanov (rb_X b) (rb_c b)) (rb_c b) i j k.
Proof.
  intros cfg r rs b i j k HV HC HD Hr HL HS Hb HI HN. pose proof (step_radius cfg rs HV HC HD HS) as (Hdt & U). set (dt := fst (getDtMaxCFL cfg (reads rs))) in *. clearbody dt.
  destruct HS as (_ & HB). destruct (HB b Hb) as (HRe & _ & HG). destruct (rect_at b i j k HRe HI) as (dx & dy & dz & HX & Px & Py & Pz & Tx & Ty & Tz).
  pose proof (rectVolume b i j k dx dy dz HX) as VV. assert (Pv : 0 < dx * dy * dz) by (apply Rmult_lt_0_compat; auto; apply Rmult_lt_0_compat; auto).
  assert (G : forall p, In p (around i j k) -> gasState (cellAt (rb_c b) p)).
  { intros p [<- | Hp]; [apply HG; auto|]. destruct (HN p Hp) as (b' & i' & j' & k' & Hb' & HI' & -> & _). apply (HB b' Hb'); auto. }
  pose proof (U b i j k Hb HI) as U0.
  assert (UN : forall p a, In p (tl (around i j k)) -> dt * (speedAlong (cellAt (rb_c b) p) a + c_c (cellAt (rb_c b) p)) <= maxCFL cfg * r * width (readsOf b) a i j k).
  { intros p a Hp. destruct (HN p Hp) as (b' & i' & j' & k' & Hb' & HI' & -> & HW). eapply Rle_trans; [apply U; auto|]. rewrite Rmult_assoc. apply Rmult_le_compat_l; [lra|apply HW]. }
  assert (RT : forall a S g p q, gS g = S -> 0 < S -> (forall c, Rabs (faceNormalVelocity g c) = speedAlong c a) -> (p = (i, j, k) /\ In q (tl (around i j k)) \/ q = (i, j, k) /\ In p (tl (around i j k))) ->
    dt * faceRate g (cellAt (rb_c b) p) (cellAt (rb_c b) q) <= maxCFL cfg * (1 + r) * (width (readsOf b) a i j k * S)).
  { intros a S g p q HgS HS Hsp HA. unfold faceRate. rewrite HgS, !Hsp.
    assert (IN : In p (around i j k) /\ In q (around i j k)) by (unfold around; cbn [tl In] in *; destruct HA as [(-> & H)|(-> & H)]; split; cbn; tauto).
    pose proof (gas_sound _ (G p (proj1 IN))). pose proof (gas_sound _ (G q (proj2 IN))). pose proof (speed_pos (cellAt (rb_c b) p) a). pose proof (speed_pos (cellAt (rb_c b) q) a).
    assert (B : dt * (speedAlong (cellAt (rb_c b) p) a + c_c (cellAt (rb_c b) p)) + dt * (speedAlong (cellAt (rb_c b) q) a + c_c (cellAt (rb_c b) q)) <= maxCFL cfg * (1 + r) * width (readsOf b) a i j k).
    { destruct HA as [(-> & H3)|(-> & H3)]; specialize (UN _ a H3); specialize (U0 a); change (rb_c b i j k) with (cellAt (rb_c b) (i, j, k)) in U0; lra. }
    set (up := speedAlong (cellAt (rb_c b) p) a) in *. set (uq := speedAlong (cellAt (rb_c b) q) a) in *. set (cp := c_c (cellAt (rb_c b) p)) in *. set (cq := c_c (cellAt (rb_c b) q)) in *. clearbody up uq cp cq.
    rewrite <- !Rmult_assoc. apply Rmult_le_compat_r; [lra|]. eapply Rle_trans; [|exact B].
    unfold Rmax. destruct Rle_dec; nra. }
  apply C155_rusanov; auto; [lra|lra|].
  pose proof (face_axis b i j k dx dy dz HX Tx Ty Tz) as FA. pose proof (rectWidth b i j k dx dy dz HX Px Py Pz) as WD.
  assert (PI1 : 0 < dy * dz) by (apply Rmult_lt_0_compat; auto). assert (PJ1 : 0 < dz * dx) by (apply Rmult_lt_0_compat; auto). assert (PK1 : 0 < dx * dy) by (apply Rmult_lt_0_compat; auto).
  assert (PH : forall X, X = dx * dy * dz -> maxCFL cfg * (1 + r) * X * 3 <= dx * dy * dz) by (intros X ->; nra).
  assert (R1 := RT AI (dy * dz) (geoI (rb_X b) i j k) ((i - 1)%Z, j, k) (i, j, k)). assert (R2 := RT AI (dy * dz) (geoI (rb_X b) (i + 1) j k) (i, j, k) ((i + 1)%Z, j, k)).
  assert (R3 := RT AJ (dz * dx) (geoJ (rb_X b) i j k) (i, (j - 1)%Z, k) (i, j, k)). assert (R4 := RT AJ (dz * dx) (geoJ (rb_X b) i (j + 1) k) (i, j, k) (i, (j + 1)%Z, k)).
  assert (R5 := RT AK (dx * dy) (geoK (rb_X b) i j k) (i, j, (k - 1)%Z) (i, j, k)). assert (R6 := RT AK (dx * dy) (geoK (rb_X b) i j (k + 1)) (i, j, k) (i, j, (k + 1)%Z)).
  rewrite WD in R1, R2, R3, R4, R5, R6. cbv beta iota in R1, R2, R3, R4, R5, R6.
  specialize (R1 (proj1 (proj1 (FA (geoI (rb_X b) i j k)) ltac:(cbn; tauto))) PI1 (proj2 (proj1 (FA (geoI (rb_X b) i j k)) ltac:(cbn; tauto))) ltac:(right; split; [reflexivity|cbn; tauto])).
  specialize (R2 (proj1 (proj1 (FA (geoI (rb_X b) (i + 1) j k)) ltac:(cbn; tauto))) PI1 (proj2 (proj1 (FA (geoI (rb_X b) (i + 1) j k)) ltac:(cbn; tauto))) ltac:(left; split; [reflexivity|cbn; tauto])).
  specialize (R3 (proj1 (proj1 (proj2 (FA (geoJ (rb_X b) i j k))) ltac:(cbn; tauto))) PJ1 (proj2 (proj1 (proj2 (FA (geoJ (rb_X b) i j k))) ltac:(cbn; tauto))) ltac:(right; split; [reflexivity|cbn; tauto])).
  specialize (R4 (proj1 (proj1 (proj2 (FA (geoJ (rb_X b) i (j + 1) k))) ltac:(cbn; tauto))) PJ1 (proj2 (proj1 (proj2 (FA (geoJ (rb_X b) i (j + 1) k))) ltac:(cbn; tauto))) ltac:(left; split; [reflexivity|cbn; tauto])).
  specialize (R5 (proj1 (proj2 (proj2 (FA (geoK (rb_X b) i j k))) ltac:(cbn; tauto))) PK1 (proj2 (proj2 (proj2 (FA (geoK (rb_X b) i j k))) ltac:(cbn; tauto))) ltac:(right; split; [reflexivity|cbn; tauto])).
  specialize (R6 (proj1 (proj2 (proj2 (FA (geoK (rb_X b) i j (k + 1)))) ltac:(cbn; tauto))) PK1 (proj2 (proj2 (proj2 (FA (geoK (rb_X b) i j (k + 1)))) ltac:(cbn; tauto))) ltac:(left; split; [reflexivity|cbn; tauto])).
  unfold cellAt in R1, R2, R3, R4, R5, R6. cbv beta iota in R1, R2, R3, R4, R5, R6.
  pose proof (PH (dx * (dy * dz)) ltac:(ring)). pose proof (PH (dy * (dz * dx)) ltac:(ring)). pose proof (PH (dz * (dx * dy)) ltac:(ring)).
  unfold faceRates. lra.
Qed.

(** what leaves a cell through a face in HLLC is bounded by its own speed *)
Lemma hllc_mass g st : 0 < gS g -> gasState (st (-1)%Z) -> gasState (st 0%Z) ->
  positive (hllc g st 0%Z) <= c_rho (st (-1)%Z) * ((Rabs (faceNormalVelocity g (st (-1)%Z)) + c_c (st (-1)%Z)) * gS g) /\
  positive (- hllc g st 0%Z) <= c_rho (st 0%Z) * ((Rabs (faceNormalVelocity g (st 0%Z)) + c_c (st 0%Z)) * gS g).
Proof.
  intros HS (_ & P1 & P2) (_ & P3 & P4). set (A := st (-1)%Z) in *. set (B := st 0%Z) in *.
  assert (starM : forall c W s, W - s <> 0 -> starFlux g W s (ofCell c) 0%Z = c_rho c * gS g * (s * (W - fn g (ofCell c)) / (W - s))).
  { intros c W s N. unfold starFlux. cbv zeta. unfold comp. cbn [Z.eqb]. unfold sideFlux. cbv zeta. unfold comp. cbn [Z.eqb]. change (f_rho (ofCell c)) with (c_rho c). field. auto. }
  assert (sideM : forall c, sideFlux g (ofCell c) 0%Z = c_rho c * gS g * fn g (ofCell c)) by (intros; unfold sideFlux; cbv zeta; unfold comp; cbn [Z.eqb]; change (f_rho (ofCell c)) with (c_rho c); ring).
  assert (SL : hllcSL g (ofCell A) (ofCell B) = fn g (ofCell A) - c_c A) by reflexivity. assert (SR : hllcSR g (ofCell A) (ofCell B) = fn g (ofCell B) + c_c B) by reflexivity.
  rewrite <- !fn_ofCell. assert (PA : 0 < c_rho A * gS g) by (apply Rmult_lt_0_compat; auto). assert (PB : 0 < c_rho B * gS g) by (apply Rmult_lt_0_compat; auto).
  set (ua := fn g (ofCell A)) in *. set (ub := fn g (ofCell B)) in *. pose proof (Rabs_pos ua) as K1. pose proof (Rabs_pos ub) as K2. pose proof (Rle_abs ua) as K3. pose proof (Rle_abs ub) as K4. pose proof (Rle_abs (- ua)) as K5. pose proof (Rle_abs (- ub)) as K6. rewrite Rabs_Ropp in K5, K6.
  set (ba := c_rho A * gS g) in *. set (bb := c_rho B * gS g) in *.
  assert (X : forall m ma mb, hllc g st 0%Z = m -> (m <= ba * ma /\ 0 <= ma <= Rabs ua + c_c A) -> (- m <= bb * mb /\ 0 <= mb <= Rabs ub + c_c B) -> positive (hllc g st 0%Z) <= c_rho A * ((Rabs ua + c_c A) * gS g) /\ positive (- hllc g st 0%Z) <= c_rho B * ((Rabs ub + c_c B) * gS g)).
  { intros m ma mb -> (Q1 & Q2) (Q3 & Q4). replace (c_rho A * ((Rabs ua + c_c A) * gS g)) with (ba * (Rabs ua + c_c A)) by (unfold ba; ring). replace (c_rho B * ((Rabs ub + c_c B) * gS g)) with (bb * (Rabs ub + c_c B)) by (unfold bb; ring).
    clearbody ba bb. unfold positive. split; apply Rmax_lub; nra. }
  assert (Hh : hllc g st 0%Z = hllcFlux (fun _ => 0) g (ofCell A) (ofCell B) 0%Z) by reflexivity.
  unfold hllcFlux in Hh. cbv zeta in Hh. set (sl := hllcSL g (ofCell A) (ofCell B)) in *. set (sr := hllcSR g (ofCell A) (ofCell B)) in *. set (ss := hllcSstar g (ofCell A) (ofCell B)) in *. clearbody sl sr ss.
  destruct (Rle_dec 0 sl) as [H1|H1].
  { rewrite sideM in Hh. fold ua ba in Hh. apply (X _ ua 0 Hh); [split; [lra|lra]|]. split; [|lra]. assert (0 <= ba * ua) by (apply Rmult_le_pos; lra). lra. }
  destruct (Rle_dec sl 0) as [H2|H2]; [|lra].
  destruct (Rle_dec 0 ss) as [H5|H5].
  { rewrite starM in Hh by lra. fold ua ba in Hh. replace (ss * (sl - ua) / (sl - ss)) with (ss * c_c A / (- sl + ss)) in Hh by (rewrite SL; field; lra).
    assert (W : 0 <= ss * c_c A / (- sl + ss) <= c_c A). { split; [apply Rmult_le_pos; [apply Rmult_le_pos; lra|left; apply Rinv_0_lt_compat; lra]|]. apply Rmult_le_reg_r with (- sl + ss); [lra|]. replace (ss * c_c A / (- sl + ss) * (- sl + ss)) with (ss * c_c A) by (field; lra). nra. }
    set (q := ss * c_c A / (- sl + ss)) in *. clearbody q. apply (X _ q 0 Hh); [split; [lra|lra]|]. split; [|lra]. assert (0 <= ba * q) by (apply Rmult_le_pos; lra). lra. }
  destruct (Rle_dec 0 sr) as [H6|H6].
  - destruct (Rle_dec ss 0); [|lra]. rewrite starM in Hh by lra. fold ub bb in Hh. replace (ss * (sr - ub) / (sr - ss)) with (- (- ss * c_c B / (sr - ss))) in Hh by (rewrite SR; field; lra).
    assert (W : 0 <= - ss * c_c B / (sr - ss) <= c_c B). { split; [apply Rmult_le_pos; [apply Rmult_le_pos; lra|left; apply Rinv_0_lt_compat; lra]|]. apply Rmult_le_reg_r with (sr - ss); [lra|]. replace (- ss * c_c B / (sr - ss) * (sr - ss)) with (- ss * c_c B) by (field; lra). nra. }
    set (q := - ss * c_c B / (sr - ss)) in *. clearbody q. apply (X _ 0 q Hh); [|split; [lra|lra]]. split; [|lra]. assert (0 <= bb * q) by (apply Rmult_le_pos; lra). lra.
  - destruct (Rle_dec sr 0); [|lra]. rewrite sideM in Hh. fold ub bb in Hh. apply (X _ 0 (- ub) Hh); [|split; [lra|lra]]. split; [|lra]. assert (0 <= bb * - ub) by (apply Rmult_le_pos; lra). lra.
Qed.
(** C159, HLLC.  A CFL limit of 1/6 is enough, whatever the widths of the neighbouring cells. *)
Theorem C159_hllc : forall cfg rs b i j k, variableTimeStep cfg = true -> 0 < maxCFL cfg -> 0 < maxDt cfg -> 6 * maxCFL cfg <= 1 ->
  soundRun rs -> inRun b rs -> interior (rb_d b) (rb_ng b) i j k -> (forall p, In p (around i j k) -> gasState (cellAt (rb_c b) p)) ->
  noNewExtrema (fst (getDtMaxCFL cfg (reads rs))) (volume (rb_X b)) (blockFlux hllc (rb_X b) (rb_c b)) (rb_c b) i j k.
Proof.
  intros cfg rs b i j k HV HC HD HL HS Hb HI G. pose proof (step_radius cfg rs HV HC HD HS) as (Hdt & U). set (dt := fst (getDtMaxCFL cfg (reads rs))) in *. clearbody dt.
  destruct HS as (_ & HB). destruct (HB b Hb) as (HRe & _ & HG). destruct (rect_at b i j k HRe HI) as (dx & dy & dz & HX & Px & Py & Pz & Tx & Ty & Tz).
  pose proof (rectVolume b i j k dx dy dz HX) as VV. assert (Pv : 0 < dx * dy * dz) by (apply Rmult_lt_0_compat; auto; apply Rmult_lt_0_compat; auto).
  pose proof (U b i j k Hb HI) as U0. pose proof (face_axis b i j k dx dy dz HX Tx Ty Tz) as FA. pose proof (rectWidth b i j k dx dy dz HX Px Py Pz) as WD.
  assert (PI1 : 0 < dy * dz) by (apply Rmult_lt_0_compat; auto). assert (PJ1 : 0 < dz * dx) by (apply Rmult_lt_0_compat; auto). assert (PK1 : 0 < dx * dy) by (apply Rmult_lt_0_compat; auto).
  pose proof (HG i j k HI) as (_ & PR & PC). set (rho := c_rho (rb_c b i j k)) in *.
  apply C155_carried_by_mass; auto; [cbn; auto|lra|lra|]. fold rho.
  assert (RT : forall a S g m, gS g = S -> 0 < S -> (forall c, Rabs (faceNormalVelocity g c) = speedAlong c a) -> width (readsOf b) a i j k * S = dx * dy * dz ->
    m <= rho * ((Rabs (faceNormalVelocity g (rb_c b i j k)) + c_c (rb_c b i j k)) * gS g) -> dt * m * 6 <= rho * (dx * dy * dz)).
  { intros a S g m HgS HS Hsp HWS Hm. rewrite HgS, Hsp in Hm. specialize (U0 a). set (s := speedAlong (rb_c b i j k) a + c_c (rb_c b i j k)) in *. clearbody s.
    apply Rle_trans with (6 * (dt * (rho * (s * S)))); [nra|]. rewrite <- HWS. replace (6 * (dt * (rho * (s * S)))) with (6 * (dt * s) * (rho * S)) by ring. replace (rho * (width (readsOf b) a i j k * S)) with (width (readsOf b) a i j k * (rho * S)) by ring.
    apply Rmult_le_compat_r; [apply Rmult_le_pos; lra|]. assert (0 < width (readsOf b) a i j k) by (rewrite WD; destruct a; auto). nra. }
  assert (GS : forall p, In p (around i j k) -> gasState (cellAt (rb_c b) p)) by auto. unfold around in GS.
  pose proof (GS (i, j, k) ltac:(cbn; tauto)) as G0. pose proof (GS ((i - 1)%Z, j, k) ltac:(cbn; tauto)) as G1. pose proof (GS ((i + 1)%Z, j, k) ltac:(cbn; tauto)) as G2. pose proof (GS (i, (j - 1)%Z, k) ltac:(cbn; tauto)) as G3.
  pose proof (GS (i, (j + 1)%Z, k) ltac:(cbn; tauto)) as G4. pose proof (GS (i, j, (k - 1)%Z) ltac:(cbn; tauto)) as G5. pose proof (GS (i, j, (k + 1)%Z) ltac:(cbn; tauto)) as G6. unfold cellAt in G0, G1, G2, G3, G4, G5, G6. cbv beta iota in G0, G1, G2, G3, G4, G5, G6.
  assert (OUT : forall g st, 0 < gS g -> st (-1)%Z = rb_c b i j k -> gasState (st 0%Z) -> positive (hllc g st 0%Z) <= rho * ((Rabs (faceNormalVelocity g (rb_c b i j k)) + c_c (rb_c b i j k)) * gS g)).
  { intros g st Hg E Hg2. pose proof (hllc_mass g st Hg) as M. rewrite E in M. apply M; auto. }
  assert (INN : forall g st, 0 < gS g -> st 0%Z = rb_c b i j k -> gasState (st (-1)%Z) -> positive (- hllc g st 0%Z) <= rho * ((Rabs (faceNormalVelocity g (rb_c b i j k)) + c_c (rb_c b i j k)) * gS g)).
  { intros g st Hg E Hg2. pose proof (hllc_mass g st Hg) as M. rewrite E in M. apply M; auto. }
  destruct (proj1 (FA (geoI (rb_X b) i j k)) ltac:(cbn; tauto)) as (F1 & F1'). destruct (proj1 (FA (geoI (rb_X b) (i + 1) j k)) ltac:(cbn; tauto)) as (F2 & F2').
  destruct (proj1 (proj2 (FA (geoJ (rb_X b) i j k))) ltac:(cbn; tauto)) as (F3 & F3'). destruct (proj1 (proj2 (FA (geoJ (rb_X b) i (j + 1) k))) ltac:(cbn; tauto)) as (F4 & F4').
  destruct (proj2 (proj2 (FA (geoK (rb_X b) i j k))) ltac:(cbn; tauto)) as (F5 & F5'). destruct (proj2 (proj2 (FA (geoK (rb_X b) i j (k + 1)))) ltac:(cbn; tauto)) as (F6 & F6').
  assert (WI : width (readsOf b) AI i j k * (dy * dz) = dx * dy * dz) by (rewrite WD; ring). assert (WJ : width (readsOf b) AJ i j k * (dz * dx) = dx * dy * dz) by (rewrite WD; ring). assert (WK : width (readsOf b) AK i j k * (dx * dy) = dx * dy * dz) by (rewrite WD; ring).
  unfold leavingMass, blockFlux. cbn [iF jF kF].
  assert (E1 : stI (rb_c b) (i + 1) j k (-1)%Z = rb_c b i j k) by (unfold stI; f_equal; lia). assert (E2 : stJ (rb_c b) i (j + 1) k (-1)%Z = rb_c b i j k) by (unfold stJ; f_equal; lia). assert (E3 : stK (rb_c b) i j (k + 1) (-1)%Z = rb_c b i j k) by (unfold stK; f_equal; lia).
  assert (E4 : stI (rb_c b) i j k 0%Z = rb_c b i j k) by (unfold stI; f_equal; lia). assert (E5 : stJ (rb_c b) i j k 0%Z = rb_c b i j k) by (unfold stJ; f_equal; lia). assert (E6 : stK (rb_c b) i j k 0%Z = rb_c b i j k) by (unfold stK; f_equal; lia).
  assert (N1 : gasState (stI (rb_c b) (i + 1) j k 0%Z)) by (unfold stI; rewrite Z.add_0_r; auto). assert (N2 : gasState (stJ (rb_c b) i (j + 1) k 0%Z)) by (unfold stJ; rewrite Z.add_0_r; auto). assert (N3 : gasState (stK (rb_c b) i j (k + 1) 0%Z)) by (unfold stK; rewrite Z.add_0_r; auto).
  assert (N4 : gasState (stI (rb_c b) i j k (-1)%Z)) by (unfold stI; replace (i + -1)%Z with (i - 1)%Z by lia; auto). assert (N5 : gasState (stJ (rb_c b) i j k (-1)%Z)) by (unfold stJ; replace (j + -1)%Z with (j - 1)%Z by lia; auto). assert (N6 : gasState (stK (rb_c b) i j k (-1)%Z)) by (unfold stK; replace (k + -1)%Z with (k - 1)%Z by lia; auto).
  assert (Q : forall g S, gS g = S -> 0 < S -> 0 < gS g) by (intros g S ->; auto).
  pose proof (RT AI _ _ _ F2 PI1 F2' WI (OUT _ _ (Q _ _ F2 PI1) E1 N1)). pose proof (RT AJ _ _ _ F4 PJ1 F4' WJ (OUT _ _ (Q _ _ F4 PJ1) E2 N2)). pose proof (RT AK _ _ _ F6 PK1 F6' WK (OUT _ _ (Q _ _ F6 PK1) E3 N3)).
  pose proof (RT AI _ _ _ F1 PI1 F1' WI (INN _ _ (Q _ _ F1 PI1) E4 N4)). pose proof (RT AJ _ _ _ F3 PJ1 F3' WJ (INN _ _ (Q _ _ F3 PJ1) E5 N5)). pose proof (RT AK _ _ _ F5 PK1 F5' WK (INN _ _ (Q _ _ F5 PK1) E6 N6)).
  assert (rho * (dx * dy * dz) <= rho * volume (rb_X b) i j k) by (apply Rmult_le_compat_l; lra). lra.
Qed.

(** a dense cell in thin gas at rest, in a box of 3 x 3 x 3 unit cubes *)
Definition denseAt (i j k : Z) : bool := (i =? 2)%Z && (j =? 2)%Z && (k =? 2)%Z.
Definition blob (i j k : Z) : cell :=
  mkCell (fun l => if (l =? 0)%Z then (if denseAt i j k then 1 else 1/10) else if (l =? 4)%Z then 1 else 0) (fun l => if (l =? 0)%Z then 1 else 0) (fun l => if (l =? 3)%Z then 1 else if (l =? 4)%Z then 1 else 0).
Definition boxB : runBlock := mkRB (mkDims 4 4 4) 1 cubes blob.
Definition boxRun : run := [[(boxB, fold_right (fun c t => RCell t c) RInit (cellsIn (mkDims 4 4 4) 1))]].
Lemma blob_ok i j k : gasState (blob i j k).
Proof.
  assert (P : 0 < (if denseAt i j k then 1 else 1/10)) by (destruct (denseAt i j k); lra).
  unfold gasState, coherent, blob, c_rho, c_c, c_u, c_v, c_w, c_E, c_re, vel, c_u, c_v, c_w. cbn [cQ cq ch Z.eqb Pos.eqb]. set (rho := if denseAt i j k then 1 else 1/10) in *. clearbody rho.
  split; [|lra]. split; [lra|]. split; [lra|]. split; [lra|]. split; [lra|]. split; [vcomp; lra|].
  intros l Hl. replace (l =? 0)%Z with false by lia. replace (l =? 4)%Z with false by lia. ring.
Qed.
Lemma leaves_fold l : leaves (fold_right (fun c t => RCell t c) RInit l) = l. Proof. induction l as [|x r IH]; [reflexivity|]. cbn [fold_right leaves]. now rewrite IH. Qed.
Lemma box_sched mb : In mb (reads boxRun) -> scheduled mb.
Proof.
  unfold reads, boxRun. cbn [map fst snd]. intros [<- | []] b t [E | []] i j k. pose proof (f_equal fst E) as E1. pose proof (f_equal snd E) as E2. cbn [fst snd] in E1, E2. rewrite <- E1, <- E2, leaves_fold. unfold boxB. cbn [cb_d cb_ng readsOf rb_d rb_ng]. apply cellsIn_spec.
Qed.
Lemma box_sound : soundRun boxRun.
Proof.
  split; [apply box_sched|]. intros b (mb & t & [<- | []] & [[= <- <-] | []]). split; [|split].
  - exists IZR, IZR, IZR. split; [reflexivity|]. intros i j k _. rewrite !plus_IZR. assert (tiny <= 1) by (unfold tiny; lra). repeat split; try lra;
    match goal with |- _ <= ?e => replace e with 1 by ring end; auto.
  - intros a. unfold active. destruct a; cbn; lia.
  - intros. apply blob_ok.
Qed.
Lemma box_in : inRun boxB boxRun. Proof. do 2 eexists. split; [left; reflexivity|left; reflexivity]. Qed.
Lemma box_width a i j k : interior (mkDims 4 4 4) 1 i j k -> width (readsOf boxB) a i j k = 1 /\ usedRadius (readsOf boxB) a i j k = 1.
Proof.
  intros HI. assert (HX : exists x y z : Z -> R, (forall u v w, (0 <= u <= 1)%Z -> (0 <= v <= 1)%Z -> (0 <= w <= 1)%Z -> rb_X boxB (i + u)%Z (j + v)%Z (k + w)%Z = (x (i + u)%Z, y (j + v)%Z, z (k + w)%Z)) /\
    1 = x (i + 1)%Z - x (i + 0)%Z /\ 1 = y (j + 1)%Z - y (j + 0)%Z /\ 1 = z (k + 1)%Z - z (k + 0)%Z).
  { exists IZR, IZR, IZR. split; [reflexivity|]. rewrite !plus_IZR. repeat split; ring. }
  assert (T : tiny <= 1 * 1) by (unfold tiny; lra). assert (P : 0 < 1) by lra.
  rewrite (rectRadius boxB i j k 1 1 1 HX P P P T T T), (rectWidth boxB i j k 1 1 1 HX P P P).
  unfold boxB. cbn [rb_c]. unfold speedAlong, c_u, c_v, c_w, c_c, blob. cbn [cq ch Z.eqb Pos.eqb]. destruct a; rewrite Rabs_R0; (split; [reflexivity|field]).
Qed.
Lemma box_neighbours p : In p (tl (around 2 2 2)) -> fromRun 1 boxRun boxB 2 2 2 p.
Proof.
  intros Hp. assert (W : forall i j k, interior (mkDims 4 4 4) 1 i j k -> forall a, width (readsOf boxB) a i j k <= 1 * width (readsOf boxB) a 2 2 2).
  { intros i j k HI a. rewrite (proj1 (box_width a _ _ _ HI)). rewrite (proj1 (box_width a 2 2 2 ltac:(unfold interior; cbn [ni nj nk]; lia))). lra. }
  unfold fromRun. exists boxB. cbn [around tl In] in Hp. unfold boxB at 2 3 5. cbn [rb_d rb_ng rb_c].
  repeat destruct Hp as [<- | Hp]; [..|destruct Hp]; unfold cellAt;
   match goal with |- context [boxB.(rb_c) ?a ?b ?c = _] => exists a, b, c end;
   (split; [apply box_in|]; split; [unfold interior; cbn [ni nj nk]; lia|]; split; [reflexivity|]; apply W; unfold interior; cbn [ni nj nk]; lia).
Qed.
Lemma box_step cfl : 0 < cfl -> fst (getDtMaxCFL (mkTC true cfl cfl 0) (reads boxRun)) = cfl.
Proof.
  intros HC. pose proof (C34_step_is_largest (mkTC true cfl cfl 0) (reads boxRun) eq_refl) as L.
  pose proof (C34_step_limits (mkTC true cfl cfl 0) (reads boxRun) eq_refl HC HC box_sched) as M.
  assert (R1 : snd (snd (getDtMaxCFL (mkTC true cfl cfl 0) (reads boxRun))) <= 1).
  { unfold getDtMaxCFL, reads, boxRun. cbn [map fst snd allreduceMax fold_left].
    match goal with |- snd (CFLmax ?m) <= 1 => set (mb := m); assert (S : scheduled mb) by (apply box_sched; left; reflexivity) end.
    destruct (C35_max_attained mb S) as (_ & [E|(b & t & Hb & a & i & j & k & Ha & HI & E)] & _); cbv zeta in E; rewrite E; [lra|].
    destruct Hb as [[= <- <-]|[]]. rewrite (proj2 (box_width a i j k HI)). lra. }
  destruct (getDtMaxCFL (mkTC true cfl cfl 0) (reads boxRun)) as [dt [[cA cC] cR]]. cbn [fst snd maxDt maxCFL] in *. destruct M as ((M1 & M2) & _). destruct L as [L|(_ & L)]; [auto|]. nra.
Qed.
(** the hypotheses of both theorems hold in the box, with the limit 1/6 and neighbours of equal width *)
Example C159_nonvacuous : soundRun boxRun /\ inRun boxB boxRun /\ interior (rb_d boxB) (rb_ng boxB) 2 2 2 /\ (forall p, In p (tl (around 2 2 2)) -> fromRun 1 boxRun boxB 2 2 2 p) /\
  fst (getDtMaxCFL (mkTC true (1/6) (1/6) 0) (reads boxRun)) = 1/6 /\
  noNewExtrema (1/6) (volume cubes) (blockFlux rusanov cubes blob) blob 2 2 2 /\ noNewExtrema (1/6) (volume cubes) (blockFlux hllc cubes blob) blob 2 2 2.
Proof.
  assert (I2 : interior (rb_d boxB) (rb_ng boxB) 2 2 2) by (unfold interior, boxB; cbn [rb_d rb_ng ni nj nk]; lia).
  split; [apply box_sound|]. split; [apply box_in|]. split; [auto|]. split; [apply box_neighbours|]. pose proof (box_step (1/6) ltac:(lra)) as E. split; [exact E|].
  split.
  - pose proof (C159_rusanov (mkTC true (1/6) (1/6) 0) 1 boxRun boxB 2 2 2 eq_refl) as T. cbn [maxCFL maxDt] in T. specialize (T ltac:(lra) ltac:(lra) ltac:(lra) ltac:(lra) box_sound box_in I2 box_neighbours). rewrite E in T. exact T.
  - pose proof (C159_hllc (mkTC true (1/6) (1/6) 0) boxRun boxB 2 2 2 eq_refl) as T. cbn [maxCFL maxDt] in T. specialize (T ltac:(lra) ltac:(lra) ltac:(lra) box_sound box_in I2). rewrite E in T. apply T. intros [[a b] c] _. apply blob_ok.
Qed.
(** a limit of 1 is not enough: one step of Rusanov makes the density of the dense cell negative *)
Theorem C159_limit_one_overshoots : exists cfg rs b i j k, variableTimeStep cfg = true /\ maxCFL cfg = 1 /\ 0 < maxDt cfg /\ soundRun rs /\ inRun b rs /\ interior (rb_d b) (rb_ng b) i j k /\
  (forall p, In p (tl (around i j k)) -> fromRun 1 rs b i j k p) /\
  after (fst (getDtMaxCFL cfg (reads rs))) (volume (rb_X b)) (blockFlux rusanov (rb_X b) (rb_c b)) (rb_c b) i j k 0 < 0.
Proof.
  exists (mkTC true 1 1 0), boxRun, boxB, 2%Z, 2%Z, 2%Z. split; [reflexivity|]. split; [reflexivity|]. split; [cbn [maxDt]; lra|]. split; [apply box_sound|]. split; [apply box_in|].
  split; [unfold interior, boxB; cbn [rb_d rb_ng ni nj nk]; lia|]. split; [apply box_neighbours|]. rewrite box_step by lra. unfold boxB. cbn [rb_X rb_c].
  assert (V : volume cubes 2 2 2 = 1). { unfold volume, clip, rawVolume. rewrite (proj1 (cubes_area _ _ _)), (proj1 (proj2 (cubes_area _ _ _))), (proj2 (proj2 (cubes_area _ _ _))). unfold cubes. rewrite !plus_IZR. vcomp. rewrite Rmax_left by (unfold tiny; lra). field. }
  unfold after. rewrite V.
  assert (T : tiny <= 1) by (unfold tiny; lra). destruct (axisFace 1 T) as (S1 & S2 & S3 & N1 & N2 & N3).
  assert (FX : forall g st, gS g = 1 -> (st (-1)%Z = blob 1 1 1 \/ st (-1)%Z = blob 2 2 2) -> (st 0%Z = blob 1 1 1 \/ st 0%Z = blob 2 2 2) -> rusanov g st 0%Z = (c_rho (st (-1)%Z) - c_rho (st 0%Z)) / 2).
  { intros g st Hg H1 H2. unfold rusanov, rusanovFlux, rusanovLam. cbv zeta. unfold comp. cbn [Z.eqb]. rewrite !fn_ofCell. unfold faceNormalVelocity. rewrite Hg.
    assert (Z1 : forall c, c = blob 1 1 1 \/ c = blob 2 2 2 -> dot3 (vel c) (gn g) = 0 /\ c_c c = 1). { intros c [-> | ->]; unfold vel, c_u, c_v, c_w, c_c, blob; cbn [cq ch Z.eqb Pos.eqb]; split; try reflexivity; vcomp; ring. }
    destruct (Z1 _ H1) as (-> & E1). destruct (Z1 _ H2) as (-> & E2). unfold ofCell. cbn [f_c f_rho]. rewrite E1, E2, Rabs_R0, Rmax_left by lra. field. }
  assert (NB : forall i j k, denseAt i j k = false -> blob i j k = blob 1 1 1) by (intros i j k H; unfold blob; rewrite H; reflexivity).
  unfold blockFlux. cbn [iF jF kF]. unfold geoI, geoJ, geoK. 
  repeat match goal with |- context [iArea cubes ?a ?b ?d] => rewrite (proj1 (cubes_area a b d)) end.
  repeat match goal with |- context [jArea cubes ?a ?b ?d] => rewrite (proj1 (proj2 (cubes_area a b d))) end.
  repeat match goal with |- context [kArea cubes ?a ?b ?d] => rewrite (proj2 (proj2 (cubes_area a b d))) end.
  rewrite S1, S2, S3. rewrite !FX; cbn [gS]; try reflexivity; unfold stI, stJ, stK; cbn [Z.add Pos.add Pos.succ Z.pos_sub Pos.pred_double Z.opp]; auto.
  unfold c_rho, blob. cbn [cQ Z.eqb Pos.eqb denseAt andb]. lra.
Qed.
Print Assumptions C159_rusanov.
Print Assumptions C159_hllc.
Print Assumptions C159_limit_one_overshoots.
