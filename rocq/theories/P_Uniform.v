(** C164: a uniform mixture stays uniform.  C165: it makes no difference which species is the implied one. *)
From Coq Require Import Reals ZArith List Bool Lia Lra String.
From Verif Require Import M_Topology M_Halo M_Grid M_Metrics S_Metrics S_Sum L_Sum M_Flux S_Flux M_FluxKernels S_FluxKernels L_FluxK1 S_Thermo M_Diff S_Diff L_Diff P_Diff M_Control M_Rhs P_Flux M_Time S_Time P_Time S_Uniform L_Uniform.
Import ListNotations.
Open Scope R_scope.

Lemma all_weighted f : In f otherThanMuscl2hllc -> weighted f.
Proof.
  intros H. unfold otherThanMuscl2hllc in H. cbn [In] in H. destruct H as [<-|[<-|[<-|[<-|[<-|[<-|[<-|[<-|[<-|[]]]]]]]]]];
    first [apply keep_weighted; cbn; tauto | exact central_weighted | exact fourth_weighted | exact rusanov_weighted | exact ausm_weighted | exact hllc_weighted | exact muscl2rusanov_weighted].
Qed.
Lemma coherent_Q c l : coherent c -> (5 <= l)%Z -> cQ c l = c_rho c * cq c l.
Proof. intros (_ & _ & _ & _ & _ & H). apply H. Qed.
Lemma weighted_uniform f : weighted f -> forall g st Y, (forall m, (-2 <= m <= 1)%Z -> gasOf Y (st m)) -> carried Y (f g st).
Proof.
  intros W g st Y H l Hl. destruct (W g st) as (a & b & E0 & E); [intros m Hm; apply (H m Hm)|]. rewrite E0, (E st) by (auto using flow_refl).
  unfold over4. destruct (H (-2)%Z) as (C1 & Y1); [lia|]. destruct (H (-1)%Z) as (C2 & Y2); [lia|]. destruct (H 0%Z) as (C3 & Y3); [lia|]. destruct (H 1%Z) as (C4 & Y4); [lia|].
  rewrite !coherent_Q by auto. rewrite Y1, Y2, Y3, Y4 by auto. ring.
Qed.
Lemma use_const (right : bool) phi h y : (forall m, (-2 <= m <= 1)%Z -> h m = y) -> (if right then useR else useL) phi h = y.
Proof. intros H. destruct right; unfold useR, useL; rewrite ?(H 0%Z), ?(H 1%Z), ?(H (-1)%Z) by lia; ring. Qed.
Lemma muscl2hllc_uniform g st Y : (forall m, (-2 <= m <= 1)%Z -> gasOf Y (st m)) -> carried Y (muscl2hllc g st).
Proof.
  intros H l Hl. unfold muscl2hllc. set (L := musclState true st false). set (Rs := musclState true st true).
  destruct (hllc_lin (fun _ => 0) g L Rs) as (aL & bL & aR & bR & E0 & E); auto. rewrite E0, E by (auto; repeat split).
  assert (F : forall right : bool, let s := musclState true st right in f_Y s l = Y l /\ f_rY s l = f_rho s * Y l).
  { intros right. cbv zeta. assert (EY : f_Y (musclState true st right) l = Y l) by (unfold musclState; cbn [f_Y]; apply use_const; intros m Hm; now apply (H m Hm)).
    split; [exact EY|]. unfold musclState in *. cbn [f_Y f_rY f_rho] in *. now rewrite EY. }
  destruct (F false) as (A1 & A2). destruct (F true) as (B1 & B2). fold L in A1, A2. fold Rs in B1, B2. rewrite A1, A2, B1, B2. ring.
Qed.
(** C164: through every face of which all cells of the stencil hold a gas of the same composition, each species flux is the mass flux times the mass fraction, with every advective flux... *)
Theorem C164_fluxes : forall f, In f advectiveKernels -> forall g st Y, (forall m, (-2 <= m <= 1)%Z -> gasOf Y (st m)) -> carried Y (f g st).
Proof.
  intros f Hf g st Y H. unfold advectiveKernels in Hf. cbn [In] in Hf.
  destruct Hf as [<-|[<-|[<-|[<-|[<-|[<-|[<-|[<-|[<-|[<-|[]]]]]]]]]]];
    first [apply muscl2hllc_uniform; exact H | apply weighted_uniform; [|exact H];
    first [apply keep_weighted; cbn; tauto | exact central_weighted | exact fourth_weighted | exact rusanov_weighted | exact ausm_weighted | exact hllc_weighted | exact muscl2rusanov_weighted]].
Qed.
(** ...with the artificial dissipation... *)
Theorem C164_dissipation : forall phi g LL L Rc H Y, gasOf Y LL -> gasOf Y L -> gasOf Y Rc -> gasOf Y H -> carried Y (scalarDissipationFlux phi g LL L Rc H).
Proof.
  intros phi g LL L Rc H Y (C1 & Y1) (C2 & Y2) (C3 & Y3) (C4 & Y4) l Hl. unfold scalarDissipationFlux. cbv zeta. rewrite !coherent_Q by auto.
  rewrite Y1, Y2, Y3, Y4 by auto. fold (c_rho LL) (c_rho L) (c_rho Rc) (c_rho H). ring.
Qed.
(** ...and nothing diffuses: where the composition is uniform, its gradients are zero, *)
Theorem C164_gradients : forall X q i j k y, near i j k (fun a b c => q a b c = y) -> dq2FD X q i j k = (0, 0, 0) /\ dq4FD X q i j k = (0, 0, 0).
Proof.
  intros X q i j k y H. assert (Q : forall a b c, (i - 2 <= a <= i + 2)%Z -> (j - 2 <= b <= j + 2)%Z -> (k - 2 <= c <= k + 2)%Z -> q a b c = y) by exact H. clear H.
  unfold dq2FD, dq4FD. cbv zeta. rewrite !Q by lia. split; f_equal; try f_equal; unfold Rdiv; ring.
Qed.
(** the diffusive fluxes of mass and of every species are zero, and heat is only conducted *)
Definition sameMixture (ne : Z) (L Rc : dcell) : Prop := forall n, (0 <= n < ne - 5)%Z -> dq L (5 + n)%Z = dq Rc (5 + n)%Z /\ dG L (5 + n)%Z = (0, 0, 0) /\ dG Rc (5 + n)%Z = (0, 0, 0).
Lemma noFlux gr ne f L Rc n : (5 <= ne)%Z -> (forall n, (0 <= n < ne - 5)%Z -> gr (5 + n)%Z = (0, 0, 0)) -> (0 <= n < ne - 4)%Z -> speciesFlux (ne - 4) gr f L Rc n = 0.
Proof.
  intros He H Hn. assert (G : forall m, (0 <= m < ne - 4)%Z -> faceGrad (ne - 4) gr (fs f) m = 0).
  { intros m Hm. unfold faceGrad, lastNeg. assert (D : forall x, (0 <= x < ne - 5)%Z -> dot3 (gr (5 + x)%Z) (fs f) = 0) by (intros x Hx; rewrite H by auto; unfold dot3, vx, vy, vz; cbn [fst snd]; ring).
    destruct (Z.eqb_spec m (ne - 4 - 1)); [|apply D; lia]. rewrite sumZ_zero; [ring|]. intros x Hx. apply D. lia. }
  unfold speciesFlux, fick, correction. rewrite (sumZ_zero 0 (ne - 4)) by (intros m Hm; rewrite G by auto; ring). rewrite G by auto. ring.
Qed.
Theorem C164_no_diffusion : forall ne f L Rc, (5 <= ne)%Z -> sameMixture ne L Rc ->
  (forall F, In F [alphaDampingFlux; diffusiveFlux] -> F ne f L Rc 0%Z = 0 /\ forall l, (5 <= l < ne)%Z -> F ne f L Rc l = 0) /\
  alphaDampingFlux ne f L Rc 4%Z = - dot3 (faceVelocity L Rc) (momentum (alphaDampingFlux ne f L Rc)) + fourier (mean (fun c => dt c 1%Z) L Rc) (dampedGrad f L Rc) (fs f).
Proof.
  intros ne f L Rc He H.
  assert (Gd : forall n, (0 <= n < ne - 5)%Z -> dampedGrad f L Rc (5 + n)%Z = (0, 0, 0)).
  { intros n Hn. destruct (H n Hn) as (E & G1 & G2). unfold dampedGrad, extrapolate. cbv zeta. rewrite G1, G2, E. unfold vx, vy, vz; cbn [fst snd]. unfold avg. f_equal; [f_equal|]; unfold Rdiv; ring. }
  assert (Gp : forall n, (0 <= n < ne - 5)%Z -> plainGrad f L Rc (5 + n)%Z = (0, 0, 0)).
  { intros n Hn. destruct (H n Hn) as (E & G1 & G2). unfold plainGrad, avgV. rewrite G1, G2. unfold vx, vy, vz; cbn [fst snd]. unfold avg. f_equal; [f_equal|]; unfold Rdiv; ring. }
  split.
  - intros F [<- | [<- | []]]; (split; [apply core_mass|]); intros l Hl; replace l with (5 + (l - 5))%Z by lia; unfold alphaDampingFlux, diffusiveFlux; rewrite core_species by lia; apply noFlux; auto; lia.
  - destruct (C72_energy_flux_partial ne f L Rc He) as (E & _). rewrite E. unfold heatAndEnthalpy. rewrite (sumZ_zero 0 (ne - 4)); [ring|].
    intros n Hn. rewrite noFlux by auto. ring.
Qed.

(** ** The right-hand side *)
Ltac three := unfold facesOf; intros F; inversion_clear F.
Lemma applyFlux_carried d ng ne J F dQ i j k Y : interiorCell d ng i j k -> J i j k <> 0 -> Forall (carried Y) (facesOf F i j k) ->
  (forall l, (5 <= l < ne)%Z -> dQ i j k l = Y l * dQ i j k 0%Z) -> forall l, (5 <= l < ne)%Z -> applyFlux d ng ne J F dQ i j k l = Y l * applyFlux d ng ne J F dQ i j k 0%Z.
Proof.
  intros HI HJ HF HQ l Hl. unfold facesOf in HF. inversion HF as [|? ? A1 R1]; inversion R1 as [|? ? A2 R2]; inversion R2 as [|? ? A3 R3]; inversion R3 as [|? ? A4 R4]; inversion R4 as [|? ? A5 R5]; inversion R5 as [|? ? A6 _]; subst.
  unfold applyFlux. rewrite !inCC_in by (auto; lia). cbv zeta. rewrite HQ, A1, A2, A3, A4, A5, A6 by lia. field. exact HJ.
Qed.
Lemma applyHybrid_carried d ng ne J phi pr F dQ i j k Y : interiorCell d ng i j k -> J i j k <> 0 -> Forall (carried Y) (facesOf F i j k) ->
  (forall l, (5 <= l < ne)%Z -> dQ i j k l = Y l * dQ i j k 0%Z) -> forall l, (5 <= l < ne)%Z -> applyHybridFlux d ng ne J phi pr F dQ i j k l = Y l * applyHybridFlux d ng ne J phi pr F dQ i j k 0%Z.
Proof.
  intros HI HJ HF HQ l Hl. unfold facesOf in HF. inversion HF as [|? ? A1 R1]; inversion R1 as [|? ? A2 R2]; inversion R2 as [|? ? A3 R3]; inversion R3 as [|? ? A4 R4]; inversion R4 as [|? ? A5 R5]; inversion R5 as [|? ? A6 _]; subst.
  unfold applyHybridFlux. rewrite !inCC_in by (auto; lia). cbv zeta. rewrite HQ, A1, A2, A3, A4, A5, A6 by lia. field. exact HJ.
Qed.
Lemma applyDissipation_carried d ng ne J F dQ i j k Y : interiorCell d ng i j k -> J i j k <> 0 -> Forall (carried Y) (facesOf F i j k) ->
  (forall l, (5 <= l < ne)%Z -> dQ i j k l = Y l * dQ i j k 0%Z) -> forall l, (5 <= l < ne)%Z -> applyDissipationFlux d ng ne J F dQ i j k l = Y l * applyDissipationFlux d ng ne J F dQ i j k 0%Z.
Proof.
  intros HI HJ HF HQ l Hl. unfold facesOf in HF. inversion HF as [|? ? A1 R1]; inversion R1 as [|? ? A2 R2]; inversion R2 as [|? ? A3 R3]; inversion R3 as [|? ? A4 R4]; inversion R4 as [|? ? A5 R5]; inversion R5 as [|? ? A6 _]; subst.
  unfold applyDissipationFlux. rewrite !inCC_in by (auto; lia). cbv zeta. rewrite HQ, A1, A2, A3, A4, A5, A6 by lia. field. exact HJ.
Qed.
Lemma advective_carried sh d ng ne J phi F1 F2 i j k Y : interiorCell d ng i j k -> J i j k <> 0 -> Forall (carried Y) (facesOf F1 i j k) ->
  match F2 with Some F => Forall (carried Y) (facesOf F i j k) | None => True end ->
  forall l, (5 <= l < ne)%Z -> advectiveRHS sh d ng ne J phi F1 F2 i j k l = Y l * advectiveRHS sh d ng ne J phi F1 F2 i j k 0%Z.
Proof.
  intros HI HJ H1 H2. assert (Z0 : forall l, (5 <= l < ne)%Z -> dQzero i j k l = Y l * dQzero i j k 0%Z) by (intros; unfold dQzero; ring).
  assert (HS : Forall (carried Y) (facesOf match F2 with Some F => F | None => F1 end i j k)) by (destruct F2; auto).
  unfold advectiveRHS. cbv zeta. destruct sh.
  - apply applyFlux_carried; auto.
  - apply applyDissipation_carried; auto. apply applyFlux_carried; auto.
  - apply applyHybrid_carried; auto. apply applyHybrid_carried; auto.
Qed.
(** the second flux of a shock-capturing scheme: none, another advective flux, or the artificial dissipation *)
Definition secondOf (X : nodes) (phi : array4) (c : Z -> Z -> Z -> cell) (s : option fluxes) : Prop :=
  match s with None => True | Some F => (exists f, In f advectiveKernels /\ F = blockFlux f X c) \/ F = scalarDissipation phi X c end.
(** C164, a whole right-hand side: in a cell with a gas of the same composition two cells around, the partial densities change in proportion to the density, whatever the shock-capturing scheme and
    with any diffusive flux through the faces that carries neither species nor mass *)
Theorem C164_rhs : forall sh d ng ne J phi X c f F2 FD i j k Y, In f advectiveKernels -> secondOf X phi c F2 -> interiorCell d ng i j k -> J i j k <> 0 -> near i j k (fun a b e => gasOf Y (c a b e)) ->
  match FD with Some F => Forall (fun a => a 0%Z = 0 /\ forall l, (5 <= l < ne)%Z -> a l = 0) (facesOf F i j k) | None => True end ->
  forall l, (5 <= l < ne)%Z -> flowRHS sh d ng ne J phi (blockFlux f X c) F2 FD i j k l = Y l * flowRHS sh d ng ne J phi (blockFlux f X c) F2 FD i j k 0%Z.
Proof.
  intros sh d ng ne J phi X c f F2 FD i j k Y Hf H2 HI HJ HN HD.
  assert (N : forall a b e, (i - 2 <= a <= i + 2)%Z -> (j - 2 <= b <= j + 2)%Z -> (k - 2 <= e <= k + 2)%Z -> gasOf Y (c a b e)) by exact HN.
  assert (B : forall f', In f' advectiveKernels -> Forall (carried Y) (facesOf (blockFlux f' X c) i j k)).
  { intros f' Hf'. unfold facesOf, blockFlux. cbn [iF jF kF]. repeat (apply Forall_cons; [apply C164_fluxes; [exact Hf'|]; intros m Hm; unfold stI, stJ, stK; apply N; lia|]). constructor. }
  assert (S : match F2 with Some F => Forall (carried Y) (facesOf F i j k) | None => True end).
  { destruct F2 as [F|]; [|exact I]. destruct H2 as [(f' & Hf' & ->) | ->]; [now apply B|]. unfold facesOf, scalarDissipation. cbn [iF jF kF].
    repeat (apply Forall_cons; [apply C164_dissipation; apply N; lia|]). constructor. }
  assert (A := advective_carried sh d ng ne J phi (blockFlux f X c) F2 i j k Y HI HJ (B f Hf) S). unfold flowRHS. destruct FD as [F|]; [|exact A]. intros l Hl.
  unfold applyFlux. rewrite !inCC_in by (auto; lia). cbv zeta. rewrite (A l Hl).
  unfold facesOf in HD. inversion HD as [|? ? [A1 B1] R1]; inversion R1 as [|? ? [A2 B2] R2]; inversion R2 as [|? ? [A3 B3] R3]; inversion R3 as [|? ? [A4 B4] R4]; inversion R4 as [|? ? [A5 B5] R5]; inversion R5 as [|? ? [A6 B6] _]; subst.
  rewrite A1, A2, A3, A4, A5, A6, B1, B2, B3, B4, B5, B6 by exact Hl. field. exact HJ.
Qed.
(** ...and so no explicit integrator changes the composition: if the right-hand side of a state in proportion is in proportion, so is the state after any number of steps *)
Theorem C164_steps : forall X A inner (E : env X A) f name tab ps, documented name = Some tab -> keepsInterior inner E -> governedBy inner E f -> (name = "maccormack"%string -> autonomous f) ->
  (forall x r y, In (x, r, y) ps -> inner x = true /\ inner r = true) -> (forall t z, inProportion ps z -> inProportion ps (f t z)) ->
  exists step, getIntegrator inner E name = Some step /\ forall dts s, consistent E s -> inProportion ps (Q s) -> inProportion ps (Q (fold_left (fun s dt => step dt s) dts s)).
Proof.
  intros X A inner E f name tab ps D HK HF HM HI HP. destruct (C42_tableau inner E f name tab D HK HF HM) as (step & G & St). exists step. split; [exact G|].
  assert (Cb : forall cs ks, Forall (inProportion ps) ks -> inProportion ps (comb cs ks)).
  { induction cs as [|c cs IH]; intros ks F x r y I; [cbn; ring|]. destruct F as [|h ks Hk F]; cbn [comb]; [ring|]. rewrite (Hk x r y I), (IH ks F x r y I). ring. }
  assert (Sl : forall rows t dt z ks, inProportion ps z -> Forall (inProportion ps) ks -> Forall (inProportion ps) (slopes f t dt z rows ks)).
  { induction rows as [|row rows IH]; intros t dt z ks Hz F; cbn [slopes]; [exact F|]. apply IH; [exact Hz|]. apply Forall_app. split; [exact F|]. constructor; [|constructor]. apply HP.
    intros x r y I. rewrite (Hz x r y I), (Cb row ks F x r y I). ring. }
  induction dts as [|dt dts IH]; intros s C P; [exact P|]. cbn [fold_left]. destruct (St dt s C) as (E1 & C1). apply IH; [exact C1|].
  intros x r y I. destruct (HI x r y I) as (Ix & Ir). rewrite (E1 x Ix), (E1 r Ir). unfold rungeKutta. rewrite (P x r y I), (Cb _ _ (Sl (tabA tab) (tme s) dt (Q s) [] P (Forall_nil _)) x r y I). ring.
Qed.

(** ** Which species is implied *)
(** C165: with every advective flux but muscl2hllc the flux of the implied species - the mass flux less the fluxes of the others - is the flux the kernel would compute if that species were transported *)
Theorem C165_implied : forall f, In f otherThanMuscl2hllc -> forall g st st' N l, (5 <= l)%Z -> (forall m, (-2 <= m <= 1)%Z -> coherent (st m) /\ showsImplied N l (st m) (st' m)) ->
  f g st' l = f g st 0%Z - sumZ 0 N (fun n => f g st (5 + n)%Z).
Proof.
  intros f Hf g st st' N l Hl H. destruct (all_weighted f Hf g st) as (a & b & E0 & E); [intros m Hm; apply (H m Hm)|].
  rewrite E0, (E st') by (auto; intros m Hm; apply (H m Hm)).
  rewrite (sumZ_ext 0 N _ (fun n => over4 (fun m => (a m + b m * c_rho (st m)) * cq (st m) (5 + n)%Z))).
  2:{ intros n Hn. rewrite (E st) by (auto using flow_refl; lia). unfold over4. cbv beta. rewrite !coherent_Q by (try lia; apply H; lia). ring. }
  unfold over4. cbv beta. rewrite !sumZ_plus, !sumZ_scale.
  assert (P : forall m, (-2 <= m <= 1)%Z -> cQ (st' m) l = c_rho (st m) * cq (st' m) l /\ cq (st' m) l = 1 - sumZ 0 N (fun n => cq (st m) (5 + n)%Z)).
  { intros m Hm. destruct (H m Hm) as (_ & F & C' & Y'). split; [|exact Y']. rewrite coherent_Q by auto. now rewrite (flow_rho _ _ F). }
  destruct (P (-2)%Z) as (P1 & Q1); [lia|]. destruct (P (-1)%Z) as (P2 & Q2); [lia|]. destruct (P 0%Z) as (P3 & Q3); [lia|]. destruct (P 1%Z) as (P4 & Q4); [lia|].
  rewrite P1, P2, P3, P4, Q1, Q2, Q3, Q4. ring.
Qed.
Theorem C165_dissipation : forall phi g (st st' : Z -> cell) N l, (5 <= l)%Z -> (forall m, (-2 <= m <= 1)%Z -> coherent (st m) /\ showsImplied N l (st m) (st' m)) ->
  let D s := scalarDissipationFlux phi g (s (-2)%Z) (s (-1)%Z) (s 0%Z) (s 1%Z) in D st' l = D st 0%Z - sumZ 0 N (fun n => D st (5 + n)%Z).
Proof.
  intros phi g st st' N l Hl H D. unfold D, scalarDissipationFlux. cbv zeta.
  destruct (H (-1)%Z) as (_ & F1 & _); [lia|]. destruct (H 0%Z) as (_ & F0 & _); [lia|]. flow (st (-1)%Z) (st' (-1)%Z) F1. flow (st 0%Z) (st' 0%Z) F0.
  match goal with |- context[(Rabs ?u + ?c) * gS g] => set (a := (Rabs u + c) * gS g) end. set (e4 := Rmax 0 _). set (e2 := 5/10 * phi).
  assert (P : forall m, (-2 <= m <= 1)%Z -> cQ (st' m) l = c_rho (st m) * (1 - sumZ 0 N (fun n => cq (st m) (5 + n)%Z))).
  { intros m Hm. destruct (H m Hm) as (_ & F & C' & Y'). rewrite coherent_Q by auto. now rewrite <- (flow_rho _ _ F), Y'. }
  rewrite !P by lia.
  match goal with |- _ = _ - sumZ 0 N ?h => rewrite (sumZ_ext 0 N h (fun n => a * e2 * c_rho (st 0%Z) * cq (st 0%Z) (5 + n)%Z + a * e4 * 3 * c_rho (st 0%Z) * cq (st 0%Z) (5 + n)%Z - a * e2 * c_rho (st (-1)%Z) * cq (st (-1)%Z) (5 + n)%Z
      - a * e4 * 3 * c_rho (st (-1)%Z) * cq (st (-1)%Z) (5 + n)%Z - a * e4 * c_rho (st 1%Z) * cq (st 1%Z) (5 + n)%Z + a * e4 * c_rho (st (-2)%Z) * cq (st (-2)%Z) (5 + n)%Z)) end.
  2:{ intros n Hn. rewrite !coherent_Q by (try lia; apply H; lia). ring. }
  rewrite sumZ_plus, !sumZ_minus, sumZ_plus, !sumZ_scale. fold (c_rho (st 0%Z)) (c_rho (st (-1)%Z)) (c_rho (st 1%Z)) (c_rho (st (-2)%Z)). ring.
Qed.

(** With muscl2hllc it does make a difference: each mass fraction is limited by itself, and the limited fractions of a mixture need not add to one.  Three species in supersonic flow to the right,
    with mass fractions 0, 0, 1/2 of the first, 0, 1/4, 1/2 of the second and 1, 3/4, 0 of the third in the three cells: the fractions reconstructed on the left are 0, 3/8 and 1/2. *)
Definition tube (y z : R) : cell :=
  mkCell (fun l => if (l =? 0)%Z then 1 else if (l =? 1)%Z then 2 else if (l =? 4)%Z then 3 else if (l =? 5)%Z then y else if (l =? 6)%Z then z else 0)
         (fun l => if (l =? 0)%Z then 1 else if (l =? 1)%Z then 2 else if (l =? 4)%Z then 1 else if (l =? 5)%Z then y else if (l =? 6)%Z then z else 0) (fun _ => 1).
Definition exA (m : Z) : R := if (m <? 0)%Z then 0 else 1 / 2.
Definition exB (m : Z) : R := if (m =? -2)%Z then 0 else if (m =? -1)%Z then 1 / 4 else 1 / 2.
Definition exC (m : Z) : R := if (m =? -2)%Z then 1 else if (m =? -1)%Z then 3 / 4 else 0.
Definition exG : fgeo := mkGeo 1 (1, 0, 0) (1, 0, 0).
Lemma tube_coherent y z : coherent (tube y z).
Proof.
  unfold coherent, tube, c_rho, c_u, c_v, c_w, c_E, c_re, vel, dot3, c_rho, c_u, c_v, c_w, vx, vy, vz. cbn [cQ cq ch Z.eqb Pos.eqb fst snd]. repeat split; try lra.
  intros l Hl. destruct (Z.eqb_spec l 0); [lia|]. destruct (Z.eqb_spec l 1); [lia|]. destruct (Z.eqb_spec l 4); [lia|]. destruct (Z.eqb_spec l 5); [lra|]. destruct (Z.eqb_spec l 6); lra.
Qed.
Lemma tube_flow y z y' z' : sameFlow (tube y z) (tube y' z').
Proof. split; [|reflexivity]. intros l Hl. unfold tube. cbn [cQ cq]. destruct (Z.eqb_spec l 5); [lia|]. destruct (Z.eqb_spec l 6); [lia|]. auto. Qed.
Lemma sum2cells f : sumZ 0 2 f = f 0%Z + f 1%Z.
Proof. unfold sumZ. change (zrange 0 2) with [0; 1]%Z. cbn. ring. Qed.
Lemma ex_shows m : (-2 <= m <= 1)%Z -> coherent (tube (exA m) (exB m)) /\ showsImplied 2 5 (tube (exA m) (exB m)) (tube (exC m) (exB m)).
Proof.
  intros Hm. split; [apply tube_coherent|]. split; [apply tube_flow|]. split; [apply tube_coherent|].
  rewrite sum2cells. unfold tube. cbn [cq Z.eqb Pos.eqb Z.add Pos.add Pos.succ]. unfold exA, exB, exC.
  assert (H : (m = -2 \/ m = -1 \/ m = 0 \/ m = 1)%Z) by lia. destruct H as [->|[->|[->| ->]]]; cbn [Z.ltb Z.compare Z.eqb Pos.eqb]; lra.
Qed.
Lemma ratio_num num den r : den <> 0 -> num / den = r -> ratio num den = limiter r.
Proof. intros D <-. unfold ratio. destruct (Req_EM_T den 0); [contradiction|reflexivity]. Qed.
Lemma ratio_00 num den : num = 0 -> den = 0 -> ratio num den = 2.
Proof. intros -> ->. unfold ratio. destruct (Req_EM_T 0 0); [|lra]. destruct (Rlt_dec 0 0); [lra|reflexivity]. Qed.
Lemma lim_val r a : Rmin (theta * r) ((1 + r) / 2) = a -> 0 <= a <= 2 -> limiter r = a.
Proof. intros E H. unfold limiter. rewrite E. rewrite (Rmin_left a) by (unfold theta; lra). now rewrite Rmax_right by lra. Qed.
Lemma exLeft yz b : b = true -> let s := musclState b (fun m => tube (fst yz m) (snd yz m)) false in
  f_rho s = 1 /\ f_u s = 2 /\ f_v s = 0 /\ f_w s = 0 /\ f_c s = 1 /\
  f_rY s 5%Z = useL (limL (fst yz)) (fst yz) /\ f_rY s 6%Z = useL (limL (snd yz)) (snd yz).
Proof.
  intros ->. cbv zeta. unfold musclState. cbn [f_rho f_u f_v f_w f_c f_rY]. cbv zeta.
  assert (K : forall phi h y, (forall m, h m = y) -> useL phi h = y) by (intros; unfold useL; rewrite !H; lra).
  rewrite (K _ (fun m => c_rho _) 1) by reflexivity. rewrite (K _ (fun m => c_u _) 2) by reflexivity. rewrite (K _ (fun m => c_v _) 0) by reflexivity. rewrite (K _ (fun m => c_w _) 0) by reflexivity.
  rewrite (K _ (fun m => c_c _) 1) by reflexivity. rewrite !Rmult_1_l. repeat split; reflexivity.
Qed.
Lemma exFlux yz : let st := fun m => tube (fst yz m) (snd yz m) in
  muscl2hllc exG st 0%Z = 2 /\ muscl2hllc exG st 5%Z = 2 * useL (limL (fst yz)) (fst yz) /\ muscl2hllc exG st 6%Z = 2 * useL (limL (snd yz)) (snd yz).
Proof.
  cbv zeta. destruct (exLeft yz true eq_refl) as (E0 & Eu & Ev & Ew & Ec & E5 & E6). unfold muscl2hllc, hllcFlux. cbv zeta.
  assert (U : fn exG (musclState true (fun m => tube (fst yz m) (snd yz m)) false) = 2) by (unfold fn, exG, vx, vy, vz; cbn [gn fst snd]; rewrite Eu, Ev, Ew; ring).
  unfold hllcSL. rewrite U, Ec. destruct (Rle_dec 0 (2 - 1)) as [_|N]; [|elim N; lra].
  unfold sideFlux, comp. cbn [Z.eqb Pos.eqb]. rewrite U, E0, E5, E6. cbn [exG gS]. repeat split; ring.
Qed.
Theorem C165_muscl2hllc_refuted : exists g st st' N l, faceVectors g /\ (5 <= l)%Z /\ (forall m, (-2 <= m <= 1)%Z -> coherent (st m) /\ showsImplied N l (st m) (st' m)) /\
  muscl2hllc g st' l <> muscl2hllc g st 0%Z - sumZ 0 N (fun n => muscl2hllc g st (5 + n)%Z).
Proof.
  exists exG, (fun m => tube (fst (exA, exB) m) (snd (exA, exB) m)), (fun m => tube (fst (exC, exB) m) (snd (exC, exB) m)), 2%Z, 5%Z.
  split; [unfold faceVectors, exG, vscale, vx, vy, vz; cbn [gs gS gn fst snd]; f_equal; [f_equal|]; ring|]. split; [lia|]. split; [exact ex_shows|].
  rewrite sum2cells. cbn [Z.add Pos.add Pos.succ]. destruct (exFlux (exA, exB)) as (-> & -> & ->). destruct (exFlux (exC, exB)) as (_ & -> & _). cbn [fst snd].
  assert (EA : useL (limL exA) exA = 0).
  { unfold useL, limL. rewrite (ratio_num _ _ 0); [|unfold exA; cbn; lra|unfold exA; cbn; lra]. rewrite (lim_val 0 0); [unfold exA; cbn; lra| |lra]. unfold theta. rewrite Rmin_left; lra. }
  assert (EB : useL (limL exB) exB = 3 / 8).
  { unfold useL, limL. rewrite (ratio_num _ _ 1); [|unfold exB; cbn; lra|unfold exB; cbn; lra]. rewrite (lim_val 1 1); [unfold exB; cbn; lra| |lra]. unfold theta. rewrite Rmin_right; lra. }
  assert (EC : useL (limL exC) exC = 1 / 2).
  { unfold useL, limL. rewrite (ratio_num _ _ (1 / 3)); [|unfold exC; cbn; lra|unfold exC; cbn; lra]. rewrite (lim_val (1 / 3) (2 / 3)); [unfold exC; cbn; lra| |lra]. unfold theta. rewrite Rmin_left; lra. }
  rewrite EA, EB, EC. lra.
Qed.

(** Non-vacuity: a gas of one mass fraction in two states of flow; the tube above shows its implied species *)
Example C164_nonvacuous : gasOf (fun l => if (l =? 5)%Z then 1 / 4 else if (l =? 6)%Z then 1 / 2 else 0) (tube (1 / 4) (1 / 2)) /\ c_u (tube (1 / 4) (1 / 2)) <> 0.
Proof.
  split; [split; [apply tube_coherent|]|unfold c_u, tube; cbn; lra]. intros l Hl. unfold tube. cbn [cq].
  destruct (Z.eqb_spec l 0); [lia|]. destruct (Z.eqb_spec l 1); [lia|]. destruct (Z.eqb_spec l 4); [lia|]. reflexivity.
Qed.
Example C165_nonvacuous : forall m, (-2 <= m <= 1)%Z -> coherent (tube (exA m) (exB m)) /\ showsImplied 2 5 (tube (exA m) (exB m)) (tube (exC m) (exB m)).
Proof. exact ex_shows. Qed.
Print Assumptions C164_fluxes.
Print Assumptions C164_dissipation.
Print Assumptions C164_gradients.
Print Assumptions C164_no_diffusion.
Print Assumptions C164_rhs.
Print Assumptions C164_steps.
Print Assumptions C165_implied.
Print Assumptions C165_dissipation.
Print Assumptions C165_muscl2hllc_refuted.
