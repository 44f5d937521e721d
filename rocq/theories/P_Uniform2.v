(** C165 for a whole right-hand side. *)
From Coq Require Import Reals ZArith List Bool Lia Lra.
From Verif Require Import M_Topology M_Halo M_Grid M_Metrics S_Metrics S_Sum L_Sum M_Flux S_Flux M_FluxKernels S_FluxKernels L_FluxK1 M_Control M_Rhs P_Flux S_Uniform L_Uniform P_Uniform.
Import ListNotations.
Open Scope R_scope.

Definition shows (N l : Z) (a a' : Z -> R) : Prop := a' l = a 0%Z - sumZ 0 N (fun n => a (5 + n)%Z).
(** what the three ways of adding fluxes have in common *)
Definition linearIn (ne i j k : Z) (T : fluxes -> (Z -> Z -> Z -> Z -> R) -> Z -> Z -> Z -> Z -> R) : Prop := exists k1 k2 k3 k4 k5 k6, forall F dQ l, (0 <= l < ne)%Z ->
  T F dQ i j k l = dQ i j k l + k1 * iF F i j k l + k2 * iF F (i + 1)%Z j k l + k3 * jF F i j k l + k4 * jF F i (j + 1)%Z k l + k5 * kF F i j k l + k6 * kF F i j (k + 1)%Z l.
Lemma applyFlux_lin d ng ne J i j k : interiorCell d ng i j k -> J i j k <> 0 -> linearIn ne i j k (applyFlux d ng ne J).
Proof.
  intros HI HJ. exists (/ J i j k), (- / J i j k), (/ J i j k), (- / J i j k), (/ J i j k), (- / J i j k). intros F dQ l Hl.
  unfold applyFlux. rewrite !inCC_in by (auto; lia). cbv zeta. field. exact HJ.
Qed.
Lemma applyDissipation_lin d ng ne J i j k : interiorCell d ng i j k -> J i j k <> 0 -> linearIn ne i j k (applyDissipationFlux d ng ne J).
Proof.
  intros HI HJ. exists (- / J i j k), (/ J i j k), (- / J i j k), (/ J i j k), (- / J i j k), (/ J i j k). intros F dQ l Hl.
  unfold applyDissipationFlux. rewrite !inCC_in by (auto; lia). cbv zeta. field. exact HJ.
Qed.
Lemma applyHybrid_lin d ng ne J phi pr i j k : interiorCell d ng i j k -> J i j k <> 0 -> linearIn ne i j k (applyHybridFlux d ng ne J phi pr).
Proof.
  intros HI HJ. set (w := fun a => (pr - a * (2 * pr - 1)) / J i j k).
  exists (w (Rmax (phi i j k 0%Z) (phi (i - 1)%Z j k 0%Z))), (- w (Rmax (phi i j k 0%Z) (phi (i + 1)%Z j k 0%Z))),
    (w (Rmax (phi i j k 1%Z) (phi i (j - 1)%Z k 1%Z))), (- w (Rmax (phi i j k 1%Z) (phi i (j + 1)%Z k 1%Z))),
    (w (Rmax (phi i j k 2%Z) (phi i j (k - 1)%Z 2%Z))), (- w (Rmax (phi i j k 2%Z) (phi i j (k + 1)%Z 2%Z))). intros F dQ l Hl.
  unfold applyHybridFlux. rewrite !inCC_in by (auto; lia). cbv zeta. unfold w. field. exact HJ.
Qed.
(** hence they take fluxes and rates that show the implied species to a rate that does *)
Lemma linear_shows ne i j k T N l F F' dQ dQ' : linearIn ne i j k T -> (5 <= l < ne)%Z -> (N <= ne - 5)%Z ->
  Forall2 (shows N l) (facesOf F i j k) (facesOf F' i j k) -> shows N l (dQ i j k) (dQ' i j k) -> shows N l (T F dQ i j k) (T F' dQ' i j k).
Proof.
  intros (k1 & k2 & k3 & k4 & k5 & k6 & E) Hl HN HF HQ. unfold facesOf in HF.
  inversion HF as [|? ? ? ? A1 R1]; inversion R1 as [|? ? ? ? A2 R2]; inversion R2 as [|? ? ? ? A3 R3]; inversion R3 as [|? ? ? ? A4 R4]; inversion R4 as [|? ? ? ? A5 R5]; inversion R5 as [|? ? ? ? A6 _]; subst.
  unfold shows in *. rewrite (E F' dQ' l), (E F dQ 0%Z) by lia. rewrite HQ, A1, A2, A3, A4, A5, A6.
  rewrite (sumZ_ext 0 N (fun n => T F dQ i j k (5 + n)%Z) (fun n => dQ i j k (5 + n)%Z + k1 * iF F i j k (5 + n)%Z + k2 * iF F (i + 1)%Z j k (5 + n)%Z + k3 * jF F i j k (5 + n)%Z + k4 * jF F i (j + 1)%Z k (5 + n)%Z + k5 * kF F i j k (5 + n)%Z + k6 * kF F i j (k + 1)%Z (5 + n)%Z)) by (intros n Hn; apply E; lia).
  rewrite !sumZ_plus, !sumZ_scale. ring.
Qed.
(** the second flux of a shock-capturing scheme: none, another advective flux, or the artificial dissipation *)
Inductive second := NoSecond | Advective (f : flux1) | Dissipation.
Definition allowed (f : flux1) : Prop := In f otherThanMuscl2hllc.
Definition allowedSecond (s : second) : Prop := match s with Advective f => allowed f | _ => True end.
Definition secondFlux (X : nodes) (phi : array4) (c : Z -> Z -> Z -> cell) (s : second) : option fluxes :=
  match s with NoSecond => None | Advective f => Some (blockFlux f X c) | Dissipation => Some (scalarDissipation phi X c) end.
(** C165, the whole advective right-hand side: the rate of change of a partial density is that of the density less those of the partial densities of all other species, whichever of them were the transported ones *)
Theorem C165_rhs : forall sh d ng ne J phi X (c c' : Z -> Z -> Z -> cell) f s N l i j k, allowed f -> allowedSecond s -> (5 <= l < ne)%Z -> (N <= ne - 5)%Z -> interiorCell d ng i j k -> J i j k <> 0 ->
  near i j k (fun a b e => coherent (c a b e) /\ showsImplied N l (c a b e) (c' a b e)) ->
  let rate c := advectiveRHS sh d ng ne J phi (blockFlux f X c) (secondFlux X phi c s) i j k in
  rate c' l = rate c 0%Z - sumZ 0 N (fun n => rate c (5 + n)%Z).
Proof.
  intros sh d ng ne J phi X c c' f s N l i j k Hf Hs Hl HN HI HJ Nr rate.
  assert (C : forall a b e, (i - 2 <= a <= i + 2)%Z -> (j - 2 <= b <= j + 2)%Z -> (k - 2 <= e <= k + 2)%Z -> coherent (c a b e) /\ showsImplied N l (c a b e) (c' a b e)) by exact Nr.
  assert (B : forall f', allowed f' -> Forall2 (shows N l) (facesOf (blockFlux f' X c) i j k) (facesOf (blockFlux f' X c') i j k)).
  { intros f' Hf'. unfold facesOf, blockFlux. cbn [iF jF kF].
    repeat (apply Forall2_cons; [unfold shows; apply (C165_implied f' Hf'); [lia|]; intros m Hm; unfold stI, stJ, stK; apply C; lia|]). constructor. }
  assert (Ds : forall ph g LL L Rc H LL' L' Rc' H', (forall x x', In (x, x') [(LL, LL'); (L, L'); (Rc, Rc'); (H, H')] -> coherent x /\ showsImplied N l x x') ->
    shows N l (scalarDissipationFlux ph g LL L Rc H) (scalarDissipationFlux ph g LL' L' Rc' H')).
  { intros ph g LL L Rc H LL' L' Rc' H' A. set (pick := fun (a b e h : cell) (m : Z) => if (m =? -2)%Z then a else if (m =? -1)%Z then b else if (m =? 0)%Z then e else h).
    apply (C165_dissipation ph g (pick LL L Rc H) (pick LL' L' Rc' H') N l); [lia|]. intros m Hm. unfold pick. destruct (m =? -2)%Z; [apply A; cbn; tauto|]. destruct (m =? -1)%Z; [apply A; cbn; tauto|].
    destruct (m =? 0)%Z; apply A; cbn; tauto. }
  assert (S : match secondFlux X phi c s, secondFlux X phi c' s with Some F, Some F' => Forall2 (shows N l) (facesOf F i j k) (facesOf F' i j k) | None, None => True | _, _ => False end).
  { destruct s as [|f'|]; cbn [secondFlux]; [exact I | now apply B |]. unfold facesOf, scalarDissipation. cbn [iF jF kF].
    repeat (apply Forall2_cons; [apply Ds; intros x x' [E|[E|[E|[E|[]]]]]; injection E as <- <-; apply C; lia|]). constructor. }
  assert (Z0 : shows N l (dQzero i j k) (dQzero i j k)) by (unfold shows, dQzero; rewrite (sumZ_zero 0 N) by reflexivity; ring).
  assert (P := B f Hf). change (shows N l (rate c) (rate c')). unfold rate, advectiveRHS. cbv zeta.
  assert (S' : Forall2 (shows N l) (facesOf match secondFlux X phi c s with Some F => F | None => blockFlux f X c end i j k) (facesOf match secondFlux X phi c' s with Some F => F | None => blockFlux f X c' end i j k)).
  { destruct (secondFlux X phi c s), (secondFlux X phi c' s); tauto. }
  destruct sh.
  - apply (linear_shows ne i j k _ N l _ _ dQzero dQzero (applyFlux_lin d ng ne J i j k HI HJ)); auto.
  - eapply (linear_shows ne i j k _ N l _ _ _ _ (applyDissipation_lin d ng ne J i j k HI HJ)); auto. apply (linear_shows ne i j k _ N l _ _ dQzero dQzero (applyFlux_lin d ng ne J i j k HI HJ)); auto.
  - eapply (linear_shows ne i j k _ N l _ _ _ _ (applyHybrid_lin d ng ne J phi _ i j k HI HJ)); auto. apply (linear_shows ne i j k _ N l _ _ dQzero dQzero (applyHybrid_lin d ng ne J phi _ i j k HI HJ)); auto.
Qed.
Lemma tube_shows y z y' : y' = 1 - (y + z) -> coherent (tube y z) /\ showsImplied 2 5 (tube y z) (tube y' z).
Proof.
  intros ->. split; [apply tube_coherent|]. split; [apply tube_flow|]. split; [apply tube_coherent|]. rewrite sum2cells. unfold tube. cbn [cq Z.eqb Pos.eqb Z.add Pos.add Pos.succ]. ring.
Qed.
Example C165_rhs_nonvacuous : allowed ausmPlusUp /\ allowedSecond (Advective rusanov) /\ interiorCell (mkDims 5 5 5) 2 3 3 3 /\
  near 3 3 3 (fun a b e => coherent (tube (if (a <? 3)%Z then 0 else 1 / 2) (1 / 4)) /\ showsImplied 2 5 (tube (if (a <? 3)%Z then 0 else 1 / 2) (1 / 4)) (tube (if (a <? 3)%Z then 3 / 4 else 1 / 4) (1 / 4))).
Proof.
  split; [cbn; tauto|]. split; [cbn; tauto|]. split; [unfold interiorCell; cbn; lia|]. intros a b e _ _ _. apply tube_shows. destruct (a <? 3)%Z; lra.
Qed.
Print Assumptions C165_rhs.
