(** Lemmas for C164 and C165: species fluxes are linear in the composition, with the weights of the mass flux. *)
From Coq Require Import Reals ZArith List Bool Lia Lra.
From Verif Require Import M_Topology M_Halo M_Grid M_Metrics S_Metrics S_Sum L_Sum M_Flux S_Flux M_FluxKernels S_FluxKernels L_FluxK1 M_Diff S_Uniform.
Import ListNotations.
Open Scope R_scope.

Definition over4 (w : Z -> R) : R := w (-2)%Z + w (-1)%Z + w 0%Z + w 1%Z.
(** with the coefficients a, b of a face and a flow: mass flux, and the flux of any species *)
Definition weighted (f : flux1) : Prop := forall g st, (forall m, (-2 <= m <= 1)%Z -> coherent (st m)) -> exists a b,
  f g st 0%Z = over4 (fun m => a m + b m * c_rho (st m)) /\
  forall st', (forall m, (-2 <= m <= 1)%Z -> sameFlow (st m) (st' m)) -> forall l, (5 <= l)%Z -> f g st' l = over4 (fun m => a m * cq (st' m) l + b m * cQ (st' m) l).
Definition at4 (a b c d : R) (m : Z) : R := if (m =? -2)%Z then a else if (m =? -1)%Z then b else if (m =? 0)%Z then c else if (m =? 1)%Z then d else 0.
Lemma comp_sp C mx my mz e sp l : (5 <= l)%Z -> comp C mx my mz e sp l = sp l.
Proof. intros H. unfold comp. destruct (Z.eqb_spec l 0); [lia|]. destruct (Z.eqb_spec l 1); [lia|]. destruct (Z.eqb_spec l 2); [lia|]. destruct (Z.eqb_spec l 3); [lia|]. destruct (Z.eqb_spec l 4); [lia|]. reflexivity. Qed.
Lemma comp0 C mx my mz e sp : comp C mx my mz e sp 0%Z = C. Proof. reflexivity. Qed.

Lemma flow_rho a b : sameFlow a b -> c_rho a = c_rho b. Proof. intros [H _]. unfold c_rho. apply H. lia. Qed.
Lemma flow_p a b : sameFlow a b -> c_p a = c_p b. Proof. intros [H _]. unfold c_p. apply H. lia. Qed.
Lemma flow_u a b : sameFlow a b -> c_u a = c_u b. Proof. intros [H _]. unfold c_u. apply H. lia. Qed.
Lemma flow_v a b : sameFlow a b -> c_v a = c_v b. Proof. intros [H _]. unfold c_v. apply H. lia. Qed.
Lemma flow_w a b : sameFlow a b -> c_w a = c_w b. Proof. intros [H _]. unfold c_w. apply H. lia. Qed.
Lemma flow_E a b : sameFlow a b -> c_E a = c_E b. Proof. intros [H _]. unfold c_E. apply H. lia. Qed.
Lemma flow_c a b : sameFlow a b -> c_c a = c_c b. Proof. intros [_ H]. unfold c_c. apply H. Qed.
Lemma flow_re a b : sameFlow a b -> c_re a = c_re b. Proof. intros [_ H]. unfold c_re. apply H. Qed.
Lemma flow_refl a : sameFlow a a. Proof. split; auto. Qed.
Ltac flow a b H := rewrite <- ?(flow_rho a b H), <- ?(flow_p a b H), <- ?(flow_u a b H), <- ?(flow_v a b H), <- ?(flow_w a b H), <- ?(flow_E a b H), <- ?(flow_c a b H), <- ?(flow_re a b H).

Lemma keepLike_sp Ij g st st' : sameFlow (st (-1)%Z) (st' (-1)%Z) -> sameFlow (st 0%Z) (st' 0%Z) -> forall l, (5 <= l)%Z ->
  keepLike Ij g (st' (-1)%Z) (st' 0%Z) l = 5/10 * (cq (st' 0%Z) l + cq (st' (-1)%Z) l) * keepLike Ij g (st (-1)%Z) (st 0%Z) 0%Z.
Proof. intros A B l Hl. unfold keepLike. cbv zeta. rewrite comp_sp, comp0 by auto. flow (st (-1)%Z) (st' (-1)%Z) A. flow (st 0%Z) (st' 0%Z) B. reflexivity. Qed.
Lemma keepLike_other I I' g L Rc l : l <> 4%Z -> keepLike I g L Rc l = keepLike I' g L Rc l.
Proof. intros H4. unfold keepLike, comp. cbv zeta. destruct (Z.eqb_spec l 4); [contradiction|]. reflexivity. Qed.
Lemma weighted_keep f : (forall g st, exists I, f g st = keepLike I g (st (-1)%Z) (st 0%Z)) -> weighted f.
Proof.
  intros F g st Co. destruct (F g st) as (x & Ex). set (C := keepLike x g (st (-1)%Z) (st 0%Z) 0%Z).
  exists (at4 0 (5/10 * C) (5/10 * C) 0), (fun _ => 0). split.
  - rewrite Ex. fold C. unfold over4, at4. cbn [Z.eqb Pos.eqb]. lra.
  - intros st' S l Hl. destruct (F g st') as (y & Ey). rewrite Ey, (keepLike_other y x) by lia. rewrite keepLike_sp with (st := st) by (auto; apply S; lia). fold C.
    unfold over4, at4. cbn [Z.eqb Pos.eqb]. lra.
Qed.
Lemma keep_weighted f : In f [KEEP; KEEPpe; KEPaEC] -> weighted f.
Proof. intros H. apply weighted_keep. intros g st. destruct H as [<- | [<- | [<- | []]]]; eexists; unfold KEEP, KEEPpe, KEPaEC; cbv zeta; reflexivity. Qed.
Lemma central_weighted : weighted centralDifference.
Proof.
  intros g st Co. set (U m := c_u (st m) * vx (gs g) + c_v (st m) * vy (gs g) + c_w (st m) * vz (gs g)).
  exists (fun _ => 0), (at4 0 (5/10 * U (-1)%Z) (5/10 * U 0%Z) 0). split.
  - unfold centralDifference. cbv zeta. rewrite comp0. destruct (Co (-1)%Z) as (_ & A1 & A2 & A3 & _); [lia|]. destruct (Co 0%Z) as (_ & B1 & B2 & B3 & _); [lia|].
    rewrite A1, A2, A3, B1, B2, B3. unfold over4, at4, U. cbn [Z.eqb Pos.eqb]. field.
  - intros st' S l Hl. unfold centralDifference. cbv zeta. rewrite comp_sp by auto. flow (st (-1)%Z) (st' (-1)%Z) (S (-1)%Z ltac:(lia)). flow (st 0%Z) (st' 0%Z) (S 0%Z ltac:(lia)).
    unfold over4, at4, U. cbn [Z.eqb Pos.eqb]. field.
Qed.
Lemma fourth_weighted : weighted fourthOrderKEEP.
Proof.
  intros g st Co.
  set (U := vx (gs g) * keepSum (fun a b => 5/10 * (c_u (st a) + c_u (st b))) + vy (gs g) * keepSum (fun a b => 5/10 * (c_v (st a) + c_v (st b))) + vz (gs g) * keepSum (fun a b => 5/10 * (c_w (st a) + c_w (st b)))).
  set (r a b := 5/10 * (c_rho (st a) + c_rho (st b)) * U).
  exists (at4 (- (1/12) * r 0%Z (-2)%Z) (2/3 * r 0%Z (-1)%Z - 1/12 * r 1%Z (-1)%Z) (2/3 * r 0%Z (-1)%Z - 1/12 * r 0%Z (-2)%Z) (- (1/12) * r 1%Z (-1)%Z)), (fun _ => 0). split.
  - unfold fourthOrderKEEP. cbv zeta. rewrite comp0. fold U. rewrite (keepSum_eq (fun a b => 5/10 * (c_rho (st a) + c_rho (st b)))). unfold over4, at4. cbn [Z.eqb Pos.eqb]. unfold r. field.
  - intros st' S l Hl. unfold fourthOrderKEEP. cbv zeta. rewrite comp_sp by auto. rewrite (keepSum_eq (fun a b => 5/10 * (c_rho (st' a) + c_rho (st' b)) * (5/10) * (cq (st' a) l + cq (st' b) l))).
    rewrite !keepSum_eq. flow (st (-1)%Z) (st' (-1)%Z) (S (-1)%Z ltac:(lia)). flow (st 0%Z) (st' 0%Z) (S 0%Z ltac:(lia)). flow (st 1%Z) (st' 1%Z) (S 1%Z ltac:(lia)). flow (st (-2)%Z) (st' (-2)%Z) (S (-2)%Z ltac:(lia)).
    unfold over4, at4. cbn [Z.eqb Pos.eqb]. unfold r, U. rewrite !keepSum_eq. field.
Qed.

(** ** Upwind kernels: face states whose partial densities are linear in those of the cells *)
Definition sameFace (a b : fstate) : Prop := f_rho a = f_rho b /\ f_u a = f_u b /\ f_v a = f_v b /\ f_w a = f_w b /\ f_p a = f_p b /\ f_E a = f_E b /\ f_c a = f_c b.
Lemma same_fn g a b : sameFace a b -> fn g a = fn g b.
Proof. intros (_ & A & B & C & _). unfold fn. now rewrite A, B, C. Qed.
Lemma rusanov_sp lam g L Rs L' R' l : sameFace L L' -> sameFace Rs R' -> (5 <= l)%Z ->
  rusanovFlux lam g L' R' l = 5/10 * ((fn g Rs * gS g - lam * gS g) * f_rY R' l + (fn g L * gS g + lam * gS g) * f_rY L' l) /\
  rusanovFlux lam g L Rs 0%Z = 5/10 * ((fn g Rs * gS g - lam * gS g) * f_rho Rs + (fn g L * gS g + lam * gS g) * f_rho L).
Proof. intros A B Hl. unfold rusanovFlux. cbv zeta. rewrite comp_sp, comp0 by auto. rewrite <- (same_fn g _ _ A), <- (same_fn g _ _ B). split; field. Qed.
Lemma cell_face a b : sameFlow a b -> sameFace (ofCell a) (ofCell b).
Proof. intros H. unfold ofCell, sameFace. cbn [f_rho f_u f_v f_w f_p f_E f_c]. flow a b H. repeat split. Qed.
Lemma rusanov_weighted : weighted rusanov.
Proof.
  intros g st Co. set (L := ofCell (st (-1)%Z)). set (Rs := ofCell (st 0%Z)). set (lam := rusanovLam g L Rs).
  exists (fun _ => 0), (at4 0 (5/10 * (fn g L * gS g + lam * gS g)) (5/10 * (fn g Rs * gS g - lam * gS g)) 0). split.
  - unfold rusanov. cbv zeta. fold L Rs lam. destruct (rusanov_sp lam g L Rs L Rs 5%Z) as (_ & E); [repeat split | repeat split | lia|]. rewrite E.
    unfold over4, at4. cbn [Z.eqb Pos.eqb]. change (f_rho Rs) with (c_rho (st 0%Z)). change (f_rho L) with (c_rho (st (-1)%Z)). field.
  - intros st' S l Hl. unfold rusanov. cbv zeta. assert (A := cell_face _ _ (S (-1)%Z ltac:(lia))). assert (B := cell_face _ _ (S 0%Z ltac:(lia))). fold L in A. fold Rs in B.
    replace (rusanovLam g (ofCell (st' (-1)%Z)) (ofCell (st' 0%Z))) with lam.
    2:{ unfold lam, rusanovLam. rewrite (same_fn g _ _ A), (same_fn g _ _ B). destruct A as (_ & _ & _ & _ & _ & _ & ->). destruct B as (_ & _ & _ & _ & _ & _ & ->). reflexivity. }
    destruct (rusanov_sp lam g L Rs _ _ l A B Hl) as (E & _). rewrite E. unfold over4, at4. cbn [Z.eqb Pos.eqb]. unfold ofCell at 1 2. cbn [f_rY]. field.
Qed.
Lemma ausm_weighted : weighted ausmPlusUp.
Proof.
  intros g st Co.
  assert (K : exists up m, (up = -1 \/ up = 0)%Z /\ ausmPlusUp g st 0%Z = m /\ forall st', (forall n, (-2 <= n <= 1)%Z -> sameFlow (st n) (st' n)) -> forall l, (5 <= l)%Z -> ausmPlusUp g st' l = m * cq (st' up) l).
  { unfold ausmPlusUp, ausmCore. cbv zeta. match goal with |- context[comp (?d * gS g) _ _ _ _ _ 0%Z] => set (mD := d) end.
    exists (if Rlt_dec 0 mD then -1 else 0)%Z, (mD * gS g). split; [destruct (Rlt_dec 0 mD); auto|]. split; [now rewrite comp0|].
    intros st' S l Hl. rewrite comp_sp by auto. flow (st (-1)%Z) (st' (-1)%Z) (S (-1)%Z ltac:(lia)). flow (st 0%Z) (st' 0%Z) (S 0%Z ltac:(lia)).
    fold mD. destruct (Rlt_dec 0 mD); ring. }
  destruct K as (up & m & Hup & E0 & E). rewrite E0. exists (at4 0 (if (up =? -1)%Z then m else 0) (if (up =? 0)%Z then m else 0) 0), (fun _ => 0). split.
  - destruct Hup as [-> | ->]; unfold over4, at4; cbn [Z.eqb Pos.eqb]; ring.
  - intros st' S l Hl. rewrite (E st' S l Hl). destruct Hup as [-> | ->]; unfold over4, at4; cbn [Z.eqb Pos.eqb]; ring.
Qed.
(** the species fluxes of HLLC, from partial densities and mass fractions *)
Lemma hllc_lin old g L Rs : old 0%Z = 0 -> (forall l, (5 <= l)%Z -> old l = 0) -> exists aL bL aR bR,
  hllcFlux old g L Rs 0%Z = aL + bL * f_rho L + (aR + bR * f_rho Rs) /\
  forall L' R' l, sameFace L L' -> sameFace Rs R' -> (5 <= l)%Z -> hllcFlux old g L' R' l = aL * f_Y L' l + bL * f_rY L' l + (aR * f_Y R' l + bR * f_rY R' l).
Proof.
  intros O0 O5. set (SL := hllcSL g L Rs). set (SR := hllcSR g L Rs). set (SM := hllcSstar g L Rs).
  assert (Sd : forall s, sideFlux g s 0%Z = fn g s * gS g * f_rho s) by (intros; unfold sideFlux; cbv zeta; rewrite comp0; ring).
  assert (St : forall W s, starFlux g W SM s 0%Z = (W * (f_rho s * (W - fn g s) / (W - SM)) * gS g) + (fn g s * gS g - W * gS g) * f_rho s) by (intros; unfold starFlux; cbv zeta; rewrite comp0, Sd; ring).
  assert (Sd' : forall s s' l, sameFace s s' -> (5 <= l)%Z -> sideFlux g s' l = fn g s * gS g * f_rY s' l) by (intros s s' l H Hl; unfold sideFlux; cbv zeta; rewrite comp_sp, (same_fn g _ _ H) by auto; ring).
  assert (St' : forall W s s' l, sameFace s s' -> (5 <= l)%Z -> starFlux g W SM s' l = (W * (f_rho s * (W - fn g s) / (W - SM)) * gS g) * f_Y s' l + (fn g s * gS g - W * gS g) * f_rY s' l).
  { intros W s s' l H Hl. unfold starFlux. cbv zeta. rewrite comp_sp, <- (same_fn g _ _ H) by auto. destruct H as (<- & _). ring. }
  assert (Same : forall L' R', sameFace L L' -> sameFace Rs R' -> hllcSL g L' R' = SL /\ hllcSR g L' R' = SR /\ hllcSstar g L' R' = SM).
  { intros L' R' A B. unfold SL, SR, SM, hllcSstar, hllcSL, hllcSR. rewrite (same_fn g _ _ A), (same_fn g _ _ B). destruct A as (-> & _ & _ & _ & -> & _ & ->). destruct B as (-> & _ & _ & _ & -> & _ & ->). auto. }
  set (w W s := W * (f_rho s * (W - fn g s) / (W - SM)) * gS g). set (v W s := fn g s * gS g - W * gS g).
  unfold hllcFlux at 1. cbv zeta. fold SL SR SM.
  destruct (Rle_dec 0 SL) as [c1 | c1].
  { exists 0, (fn g L * gS g), 0, 0. split; [rewrite Sd; ring|]. intros L' R' l A B Hl. destruct (Same L' R' A B) as (E1 & E2 & E3). unfold hllcFlux. cbv zeta. rewrite E1, E2, E3.
    destruct (Rle_dec 0 SL); [|contradiction]. rewrite (Sd' L L') by auto. ring. }
  destruct (Rle_dec SL 0) as [c2 | c2].
  2:{ exists 0, 0, 0, 0. split; [rewrite O0; ring|]. intros L' R' l A B Hl. destruct (Same L' R' A B) as (E1 & E2 & E3). unfold hllcFlux. cbv zeta. rewrite E1, E2, E3.
    destruct (Rle_dec 0 SL); [contradiction|]. destruct (Rle_dec SL 0); [contradiction|]. rewrite O5 by auto. ring. }
  destruct (Rle_dec 0 SM) as [c3 | c3].
  { exists (w SL L), (v SL L), 0, 0. split; [rewrite St; unfold w, v; ring|]. intros L' R' l A B Hl. destruct (Same L' R' A B) as (E1 & E2 & E3). unfold hllcFlux. cbv zeta. rewrite E1, E2, E3.
    destruct (Rle_dec 0 SL); [contradiction|]. destruct (Rle_dec SL 0); [|contradiction]. destruct (Rle_dec 0 SM); [|contradiction]. rewrite (St' SL L L') by auto. unfold w, v. ring. }
  assert (Rest : forall (T : Type) (x y z : T), (if Rle_dec 0 SR then (if Rle_dec SM 0 then x else if Rle_dec SR 0 then y else z) else if Rle_dec SR 0 then y else z) =
    if Rle_dec 0 SR then x else y).
  { intros. destruct (Rle_dec 0 SR); [destruct (Rle_dec SM 0); [reflexivity | lra] | destruct (Rle_dec SR 0); [reflexivity | lra]]. }
  rewrite Rest. destruct (Rle_dec 0 SR) as [c4 | c4].
  { exists 0, 0, (w SR Rs), (v SR Rs). split; [rewrite St; unfold w, v; ring|]. intros L' R' l A B Hl. destruct (Same L' R' A B) as (E1 & E2 & E3). unfold hllcFlux. cbv zeta. rewrite E1, E2, E3, Rest.
    destruct (Rle_dec 0 SL); [contradiction|]. destruct (Rle_dec SL 0); [|contradiction]. destruct (Rle_dec 0 SM); [contradiction|]. destruct (Rle_dec 0 SR); [|contradiction]. rewrite (St' SR Rs R') by auto. unfold w, v. ring. }
  exists 0, 0, 0, (fn g Rs * gS g). split; [rewrite Sd; ring|]. intros L' R' l A B Hl. destruct (Same L' R' A B) as (E1 & E2 & E3). unfold hllcFlux. cbv zeta. rewrite E1, E2, E3. clear Rest.
  destruct (Rle_dec 0 SL); [contradiction|]. destruct (Rle_dec SL 0); [|contradiction]. destruct (Rle_dec 0 SM); [contradiction|]. destruct (Rle_dec 0 SR); [contradiction|]. destruct (Rle_dec SR 0); [|lra]. rewrite (Sd' Rs R') by auto. ring.
Qed.
Lemma hllc_weighted : weighted hllc.
Proof.
  intros g st Co. destruct (hllc_lin (fun _ => 0) g (ofCell (st (-1)%Z)) (ofCell (st 0%Z))) as (aL & bL & aR & bR & E0 & E); auto.

  exists (at4 0 aL aR 0), (at4 0 bL bR 0). split.
  - unfold hllc. rewrite E0. cbn [ofCell f_rho]. unfold over4, at4. cbn [Z.eqb Pos.eqb]. ring.
  - intros st' S l Hl. unfold hllc. rewrite E by (auto using cell_face; apply cell_face, S; lia). cbn [ofCell f_Y f_rY]. unfold over4, at4. cbn [Z.eqb Pos.eqb]. ring.
Qed.
(** MUSCL with the density limiter for the partial densities *)
Lemma musclFace b st st' right : (forall m, (-2 <= m <= 1)%Z -> sameFlow (st m) (st' m)) -> sameFace (musclState b st right) (musclState b st' right).
Proof.
  intros S. unfold sameFace, musclState. cbn [f_rho f_u f_v f_w f_p f_E f_c]. cbv zeta.
  destruct right; unfold limR, limL, useR, useL; flow (st (-1)%Z) (st' (-1)%Z) (S (-1)%Z ltac:(lia)); flow (st 0%Z) (st' 0%Z) (S 0%Z ltac:(lia)); flow (st 1%Z) (st' 1%Z) (S 1%Z ltac:(lia));
    flow (st (-2)%Z) (st' (-2)%Z) (S (-2)%Z ltac:(lia)); repeat split.
Qed.
Lemma muscl2rusanov_weighted : weighted muscl2rusanov.
Proof.
  intros g st Co. set (L := musclState false st false). set (Rs := musclState false st true). set (lam := muscl2rusanovLam g L Rs).
  set (a := 5/10 * (fn g L * gS g + lam * gS g)). set (b := 5/10 * (fn g Rs * gS g - lam * gS g)).
  set (pL := limL (fun m => c_rho (st m))). set (pR := limR (fun m => c_rho (st m))).
  exists (fun _ => 0), (at4 0 (a * (1 - 5/10 * pL)) (a * (5/10 * pL) + b * (1 + 5/10 * pR)) (- b * (5/10 * pR))). split.
  - unfold muscl2rusanov. cbv zeta. fold L Rs lam. destruct (rusanov_sp lam g L Rs L Rs 5%Z) as (_ & E); [repeat split | repeat split | lia|]. rewrite E.
    change (f_rho Rs) with (useR pR (fun m => c_rho (st m))). change (f_rho L) with (useL pL (fun m => c_rho (st m))). unfold over4, at4, useR, useL. cbn [Z.eqb Pos.eqb]. unfold a, b. field.
  - intros st' S l Hl. unfold muscl2rusanov. cbv zeta. assert (A := musclFace false st st' false S). assert (B := musclFace false st st' true S). fold L in A. fold Rs in B.
    replace (muscl2rusanovLam g (musclState false st' false) (musclState false st' true)) with lam.
    2:{ unfold lam, muscl2rusanovLam. rewrite (same_fn g _ _ A), (same_fn g _ _ B). destruct A as (_ & _ & _ & _ & _ & _ & ->). destruct B as (_ & _ & _ & _ & _ & _ & ->). reflexivity. }
    destruct (rusanov_sp lam g L Rs _ _ l A B Hl) as (E & _). rewrite E.
    change (f_rY (musclState false st' true) l) with (useR (limR (fun m => c_rho (st' m))) (fun m => cQ (st' m) l)). change (f_rY (musclState false st' false) l) with (useL (limL (fun m => c_rho (st' m))) (fun m => cQ (st' m) l)).
    replace (limR (fun m => c_rho (st' m))) with pR. 2:{ unfold pR, limR. flow (st (-1)%Z) (st' (-1)%Z) (S (-1)%Z ltac:(lia)). flow (st 0%Z) (st' 0%Z) (S 0%Z ltac:(lia)). flow (st 1%Z) (st' 1%Z) (S 1%Z ltac:(lia)). reflexivity. }
    replace (limL (fun m => c_rho (st' m))) with pL. 2:{ unfold pL, limL. flow (st (-1)%Z) (st' (-1)%Z) (S (-1)%Z ltac:(lia)). flow (st 0%Z) (st' 0%Z) (S 0%Z ltac:(lia)). flow (st (-2)%Z) (st' (-2)%Z) (S (-2)%Z ltac:(lia)). reflexivity. }
    unfold over4, at4, useR, useL. cbn [Z.eqb Pos.eqb]. unfold a, b. field.
Qed.
