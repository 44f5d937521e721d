(** Property C78, continued: where the copies lie, the unproved cases and an example.
    Vocabulary: S_Sector.  Model: M_Sector. *)
From Coq Require Import ZArith String Ascii List Bool Lia Reals Lra.
From Verif Require Import M_Topology S_Topology L_Topology M_Grid L_Grid3 M_Cut M_Sector S_Sector L_Sector P_Sector.
Import ListNotations.
Open Scope Z_scope.

Lemma allSome_inv {A B} (h : A -> option B) l : forall r, allSome (map h l) = Some r ->
  length r = length l /\ forall i x, nth_error l i = Some x -> exists y, nth_error r i = Some y /\ h x = Some y.
Proof.
  induction l as [|x l IH]; intros r H; cbn in H.
  - injection H as <-. split; [reflexivity|]. intros [] x E; discriminate.
  - destruct (h x) as [y|] eqn:Ey; [|discriminate]. destruct (allSome (map h l)) as [t|] eqn:Et; [|discriminate].
    injection H as <-. destruct (IH t eq_refl) as [L F]. split; [cbn; lia|].
    intros [|i] z Ez; cbn in *; [injection Ez as <-; eauto|]. now apply F.
Qed.

Lemma copy_inv from nseg angle ax to : copyRotate from nseg angle ax = Some to ->
  let N := Z.of_nat (length from) in
  2 <= nseg /\ Z.of_nat (length to) = nseg * N /\
  forall s j b, 0 <= s < nseg -> 0 <= j -> nth_error from (Z.to_nat j) = Some b ->
    exists b', nth_error to (Z.to_nat (s * N + j)) = Some b' /\ counts b' = counts b /\
      forall i1 i2 i3, coord b' i1 i2 i3 = if s =? 0 then coord b i1 i2 i3
                          else rotate ax (angle * IZR s * PI / 180)%R (coord b i1 i2 i3).
Proof.
  intros H N. unfold copyRotate in H. destruct (Z.leb_spec nseg 1); [discriminate|]. split; [lia|].
  rewrite flat_pairs in H. apply (allSome_inv (fun p : Z * secBlock => _)) in H as [L F]. split.
  - rewrite L, pairs_len, map_length, seq_length, Nat2Z.inj_mul, Z2Nat.id by lia. reflexivity.
  - intros s j b Hs Hj Ej.
    assert (P : nth_error (pairsOf from (map Z.of_nat (seq 0 (Z.to_nat nseg)))) (Z.to_nat (s * N + j)) = Some (s, b)).
    { replace (Z.to_nat (s * N + j)) with (Z.to_nat s * length from + Z.to_nat j)%nat
        by (apply Nat2Z.inj; rewrite Nat2Z.inj_add, Nat2Z.inj_mul, !Z2Nat.id by (try unfold N; nia); fold N; lia).
      rewrite (pairs_nth from (Z.to_nat nseg) 0 (Z.to_nat s) (Z.to_nat j) b) by (auto; lia). do 2 f_equal. lia. }
    destruct (F _ _ P) as (b' & Eb & Hb). cbn [fst snd] in Hb. exists b'. split; [exact Eb|].
    unfold sectorBlock in Hb. destruct (allSome _); [|discriminate]. injection Hb as <-. cbn [counts coord].
    split; [reflexivity|]. intros. destruct (s =? 0); reflexivity.
Qed.

(** C78.  Sector [s] is the original turned by [s] sector angles: every block keeps its point
    counts, and with a unit axis all distances. *)
Theorem C78_sector_turned : forall from nseg angle ax to, copyRotate from nseg angle ax = Some to ->
  let N := Z.of_nat (length from) in
  forall s j b, 0 <= s < nseg -> 0 <= j -> nth_error from (Z.to_nat j) = Some b ->
  exists b', nth_error to (Z.to_nat (s * N + j)) = Some b' /\ counts b' = counts b /\
    (forall i1 i2 i3, coord b' i1 i2 i3 = rotate ax (IZR s * (angle * PI / 180))%R (coord b i1 i2 i3)) /\
    (dot ax ax = 1%R -> forall i1 i2 i3 j1 j2 j3,
       norm (vsub (coord b' i1 i2 i3) (coord b' j1 j2 j3)) = norm (vsub (coord b i1 i2 i3) (coord b j1 j2 j3))).
Proof.
  intros from nseg angle ax to H N s j b Hs Hj Ej. destruct (copy_inv _ _ _ _ _ H) as (_ & _ & F).
  destruct (F s j b Hs Hj Ej) as (b' & Eb & Ec & Ex). exists b'. split; [exact Eb|]. split; [exact Ec|].
  assert (T : forall i1 i2 i3, coord b' i1 i2 i3 = rotate ax (IZR s * (angle * PI / 180))%R (coord b i1 i2 i3)).
  { intros. rewrite Ex. destruct (Z.eqb_spec s 0) as [->|Ns].
    - rewrite Rmult_0_l, rotate_0. reflexivity.
    - f_equal. field. }
  split; [exact T|]. intros U i1 i2 i3 j1 j2 j3. rewrite !T.
  assert (D : forall t a b, vsub (rotate ax t a) (rotate ax t b) = rotate ax t (vsub a b))
    by (intros; unfold rotate; vd; veq; ring).
  rewrite D. now apply norm_rotate.
Qed.

(** C78.  If a point of the high side is the turned image of a point of the low side, then in the
    result every sector's high point is the next sector's low point, and in a full annulus the
    last sector's high point is the first one's low point. *)
Theorem C78_sector_faces_meet : forall from nseg angle ax to, copyRotate from nseg angle ax = Some to ->
  dot ax ax = 1%R ->
  let N := Z.of_nat (length from) in
  forall jl jh bl bh i1 i2 i3 k1 k2 k3, 0 <= jl -> 0 <= jh ->
  nth_error from (Z.to_nat jl) = Some bl -> nth_error from (Z.to_nat jh) = Some bh ->
  coord bh k1 k2 k3 = rotate ax (angle * PI / 180)%R (coord bl i1 i2 i3) ->
  (forall s, 0 <= s -> s + 1 < nseg -> exists b b',
     nth_error to (Z.to_nat (s * N + jh)) = Some b /\ nth_error to (Z.to_nat ((s + 1) * N + jl)) = Some b' /\
     coord b k1 k2 k3 = coord b' i1 i2 i3) /\
  ((IZR nseg * angle = 360)%R -> exists b b',
     nth_error to (Z.to_nat ((nseg - 1) * N + jh)) = Some b /\ nth_error to (Z.to_nat jl) = Some b' /\
     coord b k1 k2 k3 = coord b' i1 i2 i3).
Proof.
  intros from nseg angle ax to H U N jl jh bl bh i1 i2 i3 k1 k2 k3 Hl Hh El Eh E.
  pose proof (copy_inv _ _ _ _ _ H) as (HS & _ & _). split.
  - intros s H0 H1.
    destruct (C78_sector_turned _ _ _ _ _ H s jh bh ltac:(lia) Hh Eh) as (b & Eb & _ & Tb & _).
    destruct (C78_sector_turned _ _ _ _ _ H (s + 1) jl bl ltac:(lia) Hl El) as (b' & Eb' & _ & Tb' & _).
    exists b, b'. split; [exact Eb|]. split; [exact Eb'|]. rewrite Tb, Tb', E, rotate_plus by exact U.
    f_equal. rewrite plus_IZR. ring.
  - intros A.
    destruct (C78_sector_turned _ _ _ _ _ H (nseg - 1) jh bh ltac:(lia) Hh Eh) as (b & Eb & _ & Tb & _).
    destruct (C78_sector_turned _ _ _ _ _ H 0 jl bl ltac:(lia) Hl El) as (b' & Eb' & _ & Tb' & _).
    exists b, b'. split; [exact Eb|]. split; [exact Eb'|]. rewrite Tb, Tb', E, rotate_plus by exact U.
    replace (IZR (nseg - 1) * (angle * PI / 180) + angle * PI / 180)%R with (0 + 2 * PI)%R
      by (rewrite minus_IZR; transitivity (IZR nseg * angle * PI / 180)%R; [rewrite A; field|field]).
    unfold rotate. rewrite cos_plus, sin_plus, cos_2PI, sin_2PI, Rmult_0_l, cos_0, sin_0. vd. veq; ring.
Qed.

(** * Examples *)
Definition exF (n : Z) (t : string) (nb : option Z) : face :=
  mkFace n None t nb (match nb with Some _ => Some "123"%string | None => None end).
Definition wallF n := exF n "adiabaticSlipWall" None.
Definition exSec (n : Z) (fs : list face) : secBlock := mkSec (mkBlock n fs) (2, 2, 2) (fun i j k => (IZR i, IZR j, IZR k)).

(** Two blocks side by side, the first on the low side and the second on the high side. *)
Definition twoBlocks : list secBlock :=
  [exSec 0 [wallF 1; wallF 2; exF 3 "periodicRotLow" (Some 1); exF 4 "b0" (Some 1); wallF 5; wallF 6];
   exSec 1 [wallF 1; wallF 2; exF 3 "b0" (Some 0); exF 4 "periodicRotHigh" (Some 0); wallF 5; wallF 6]].

Lemma sblk_cases mb n b : sblk mb n b -> exists i, n = Z.of_nat i /\ nth_error mb i = Some b.
Proof. intros [H E]. exists (Z.to_nat n). split; [lia|exact E]. Qed.

Lemma wall_boundary n : isBoundary (bcType (wallF n)).
Proof. split; [cbn; tauto|]. intros u H. cbn in H. repeat (destruct H as [H|H]; [discriminate H|]). exact H. Qed.

Definition unitOrient : orient := fun a => (a, true).
Lemma unit_legal : legal unitOrient. Proof. intros a b H. exact H. Qed.
Lemma unit_inverse : inverse unitOrient unitOrient. Proof. intros [a []]; reflexivity. Qed.

Ltac sixFaces K Ek :=
  let D := fresh in
  match type of K with 1 <= ?k <= 6 =>
    assert (D : k = 1 \/ k = 2 \/ k = 3 \/ k = 4 \/ k = 5 \/ k = 6) by lia;
    destruct D as [->|[->|[->|[->|[->| ->]]]]]; cbn in Ek; apply (f_equal (fun o => match o with Some a => a | None => wallF 0 end)) in Ek; cbn in Ek; subst
  end.
Ltac joined B k' s :=
  right; exists B, k'; split; [reflexivity|];
  do 2 eexists; exists unitOrient, unitOrient, s;
  split; [eexists; split; [split; [lia|reflexivity]|split; [lia|reflexivity]]|];
  split; [eexists; split; [split; [lia|reflexivity]|split; [lia|reflexivity]]|];
  split; [reflexivity|]; split; [reflexivity|]; split; [exact unit_legal|]; split; [exact unit_inverse|];
  split; [reflexivity|]; split; [reflexivity|]; split; [reflexivity|]; split; [reflexivity|]; cbn; tauto.
Ltac byWall := left; split; [reflexivity|apply (wall_boundary 1)].

Example C78_nonvacuous : consistent (map conn twoBlocks) /\ notThin (map conn twoBlocks) /\ rotationOnly (map conn twoBlocks).
Proof.
  assert (C : forall n b, sblk (map conn twoBlocks) n b -> (n = 0 /\ Some b = nth_error (map conn twoBlocks) 0) \/ (n = 1 /\ Some b = nth_error (map conn twoBlocks) 1)).
  { intros n b H. apply sblk_cases in H as (i & -> & E). destruct i as [|[|[|]]]; try discriminate E; rewrite <- E; auto. }
  split; [split|split].
  - intros n b H. apply C in H as [[-> H]|[-> H]]; cbn in H; injection H as ->; split; reflexivity.
  - intros A k f (b & B & K & Ek). apply C in B as [[-> H]|[-> H]]; cbn in H; injection H as ->; sixFaces K Ek; try byWall.
    + joined 1 4 (J, false).
    + joined 1 3 (J, true).
    + joined 0 4 (J, false).
    + joined 0 3 (J, true).
  - intros A k k' f g (b & B & K & Ek) (b' & B' & K' & Ek') T.
    assert (b' = b) by (destruct B as [_ B], B' as [_ B']; congruence). subst b'.
    apply C in B as [[-> H]|[-> H]]; cbn in H; injection H as ->; sixFaces K Ek; try discriminate T; sixFaces K' Ek'; discriminate.
  - intros A k f (b & B & K & Ek). apply C in B as [[-> H]|[-> H]]; cbn in H; injection H as ->; sixFaces K Ek; split; discriminate.
Qed.

(** The same connectivity on an actual quarter annulus: the high side is the low side turned. *)
Definition quarter : list secBlock :=
  map (fun p : Z * secBlock => mkSec (conn (snd p)) (2, 2, 2)
     (fun i j k => rotate (0, 0, 1)%R (IZR (fst p + j) * (45 * PI / 180))%R (1 + IZR i, 0, IZR k)%R))
   [(0, exSec 0 [wallF 1; wallF 2; exF 3 "periodicRotLow" (Some 1); exF 4 "b0" (Some 1); wallF 5; wallF 6]);
    (1, exSec 1 [wallF 1; wallF 2; exF 3 "b0" (Some 0); exF 4 "periodicRotHigh" (Some 0); wallF 5; wallF 6])].
Example C78_meet_nonvacuous : exists bl bh to, nth_error quarter 0 = Some bl /\ nth_error quarter 1 = Some bh /\
  copyRotate quarter 4 90 (0, 0, 1)%R = Some to /\ (dot (0, 0, 1) (0, 0, 1) = 1)%R /\
  forall i k, coord bh i 1 k = rotate (0, 0, 1)%R (90 * PI / 180)%R (coord bl i 0 k).
Proof.
  destruct C78_nonvacuous as (C & T & R).
  assert (Q : map conn quarter = map conn twoBlocks) by reflexivity. rewrite <- Q in C, T, R.
  destruct (C78_sector_connected quarter 4 90%R (0, 0, 1)%R C T R ltac:(lia)) as (to & E & _).
  do 2 eexists. exists to. split; [reflexivity|]. split; [reflexivity|]. split; [exact E|]. split; [unfold dot, vx, vy, vz; cbn; lra|].
  intros i k. cbn [coord fst]. rewrite rotate_plus by (unfold dot, vx, vy, vz; cbn; lra).
  replace (IZR (1 + 1) * (45 * PI / 180))%R with (90 * PI / 180 + IZR (0 + 0) * (45 * PI / 180))%R; [reflexivity|].
  change (1 + 1) with 2. change (0 + 0) with 0. field.
Qed.

(** A one-block sector of 120 degrees. *)
Definition oneBlock : list secBlock :=
  [exSec 0 [wallF 1; wallF 2; exF 3 "periodicRotLow" (Some 0); exF 4 "periodicRotHigh" (Some 0); wallF 5; wallF 6]].
Lemma oneBlock_consistent : consistent (map conn oneBlock) /\ rotationOnly (map conn oneBlock).
Proof.
  assert (C : forall n b, sblk (map conn oneBlock) n b -> n = 0 /\ Some b = nth_error (map conn oneBlock) 0).
  { intros n b H. apply sblk_cases in H as (i & -> & E). destruct i as [|[|]]; try discriminate E; rewrite <- E; auto. }
  split; [split|].
  - intros n b H. apply C in H as [-> H]; cbn in H; injection H as ->; split; reflexivity.
  - intros A k f (b & B & K & Ek). apply C in B as [-> H]; cbn in H; injection H as ->; sixFaces K Ek; try byWall.
    + joined 0 4 (J, false).
    + joined 0 3 (J, true).
  - intros A k f (b & B & K & Ek). apply C in B as [-> H]; cbn in H; injection H as ->; sixFaces K Ek; split; discriminate.
Qed.

Lemma is360_exact nseg angle : (IZR nseg * angle = 360)%R -> is360 nseg angle = true.
Proof. intros H. unfold is360. destruct Rlt_dec as [|N]; [reflexivity|]. exfalso. apply N. rewrite H, Rminus_diag_eq, Rabs_R0 by reflexivity. lra. Qed.

(** C78 fails for a sector one block thick: the copies' high faces are connected as low ones, and
    the first sector's high face keeps its old neighbour. *)
Theorem C78_thin_refuted : exists from nseg angle ax to,
  consistent (map conn from) /\ rotationOnly (map conn from) /\ 2 <= nseg /\ dot ax ax = 1%R /\ (IZR nseg * angle = 360)%R /\
  copyRotate from nseg angle ax = Some to /\ ~ consistent (map conn to).
Proof.
  exists oneBlock, 3, 120%R, (0, 0, 1)%R. destruct oneBlock_consistent as [C R].
  eexists. split; [exact C|]. split; [exact R|]. split; [lia|]. split; [unfold dot, vx, vy, vz; cbn; lra|].
  assert (A : (3 * 120 = 360)%R) by lra. split; [exact A|]. split.
  { unfold copyRotate. rewrite (is360_exact _ _ A). reflexivity. }
  match goal with |- ~ consistent ?t => set (X := t) end.
  assert (F0 : nth_error X 0 = Some (mkBlock 0 [wallF 1; wallF 2; exF 3 "b0" (Some 2); exF 4 "periodicRotHigh" (Some 0); wallF 5; wallF 6])) by reflexivity.
  clearbody X. intros [_ K2].
  destruct (K2 0 4 (exF 4 "periodicRotHigh" (Some 0))) as [[X0 _]|(B & k' & E & J)].
  - eexists; split; [split; [lia|exact F0]|split; [lia|reflexivity]].
  - discriminate X0.
  - assert (B = 0) by (cbn in E; congruence). subst B.
    destruct J as (f & g & o & o' & s & (b & [_ Eb] & _ & Ek) & (b' & [_ Eb'] & K' & Ek') & _ & Ng & _ & _ & _ & _ & _ & _ & T).
    assert (b = b') by congruence. subst b'. change (Z.to_nat 0) with 0%nat in Eb. rewrite F0 in Eb.
    apply (f_equal (fun o => match o with Some a => a | None => mkBlock 0 [] end)) in Eb. cbn in Eb. subst b.
    apply (f_equal (fun o => match o with Some a => a | None => wallF 0 end)) in Ek. cbn in Ek. subst f.
    sixFaces K' Ek'; cbn in Ng; try discriminate Ng.
    cbn in T. repeat (destruct T as [T|T]; [discriminate T|]). exact T.
Qed.

(** Three blocks in a row; every block is also translationally periodic along k, onto itself. *)
Definition transBlocks : list secBlock :=
  let ends := fun n => [exF 5 "periodicTransLow" (Some n); exF 6 "periodicTransHigh" (Some n)] in
  [exSec 0 ([wallF 1; wallF 2; exF 3 "periodicRotLow" (Some 2); exF 4 "b0" (Some 1)] ++ ends 0);
   exSec 1 ([wallF 1; wallF 2; exF 3 "b0" (Some 0); exF 4 "b0" (Some 2)] ++ ends 1);
   exSec 2 ([wallF 1; wallF 2; exF 3 "b0" (Some 1); exF 4 "periodicRotHigh" (Some 0)] ++ ends 2)].
Lemma transBlocks_consistent : consistent (map conn transBlocks) /\ notThin (map conn transBlocks).
Proof.
  assert (C : forall n b, sblk (map conn transBlocks) n b -> (n = 0 /\ Some b = nth_error (map conn transBlocks) 0) \/
     (n = 1 /\ Some b = nth_error (map conn transBlocks) 1) \/ (n = 2 /\ Some b = nth_error (map conn transBlocks) 2)).
  { intros n b H. apply sblk_cases in H as (i & -> & E). destruct i as [|[|[|[|]]]]; try discriminate E; rewrite <- E; auto. }
  split; [split|].
  - intros n b H. apply C in H as [[-> H]|[[-> H]|[-> H]]]; cbn in H; injection H as ->; split; reflexivity.
  - intros A k f (b & B & K & Ek). apply C in B as [[-> H]|[[-> H]|[-> H]]]; cbn in H; injection H as ->; sixFaces K Ek; try byWall.
    + joined 2 4 (J, false).
    + joined 1 3 (J, true).
    + joined 0 6 (S_Topology.K, false).
    + joined 0 5 (S_Topology.K, true).
    + joined 0 4 (J, false).
    + joined 2 3 (J, true).
    + joined 1 6 (S_Topology.K, false).
    + joined 1 5 (S_Topology.K, true).
    + joined 1 4 (J, false).
    + joined 0 3 (J, true).
    + joined 2 6 (S_Topology.K, false).
    + joined 2 5 (S_Topology.K, true).
  - intros A k k' f g (b & B & K & Ek) (b' & B' & K' & Ek') T.
    assert (b' = b) by (destruct B as [_ B], B' as [_ B']; congruence). subst b'.
    apply C in B as [[-> H]|[[-> H]|[-> H]]]; cbn in H; injection H as ->; sixFaces K Ek; try discriminate T; sixFaces K' Ek'; discriminate.
Qed.

(** C78 fails for a sector that is also translationally periodic: in the copies an inner block's
    periodic faces silently become adiabatic no-slip walls, and a low-side block's become interior
    connections to the wrong block. *)
Theorem C78_translational_refuted : exists from nseg angle ax to,
  consistent (map conn from) /\ notThin (map conn from) /\ 2 <= nseg /\ dot ax ax = 1%R /\ (IZR nseg * angle = 360)%R /\
  copyRotate from nseg angle ax = Some to /\
  (exists f g, sfac (map conn from) 1 5 f /\ bcType f = "periodicTransLow"%string /\ neighbor f = Some 1 /\
     sfac (map conn to) (Z.of_nat (length from) + 1) 5 g /\ bcType g = "adiabaticNoSlipWall"%string /\ neighbor g = None) /\
  ~ consistent (map conn to).
Proof.
  exists transBlocks, 2, 180%R, (0, 0, 1)%R. destruct transBlocks_consistent as [C R].
  eexists. split; [exact C|]. split; [exact R|]. split; [lia|]. split; [unfold dot, vx, vy, vz; cbn; lra|].
  assert (A : (2 * 180 = 360)%R) by lra. split; [exact A|]. split.
  { unfold copyRotate. rewrite (is360_exact _ _ A). reflexivity. }
  split.
  { do 2 eexists. split; [eexists; split; [split; [lia|reflexivity]|split; [lia|reflexivity]]|]. split; [reflexivity|]. split; [reflexivity|].
    split; [eexists; split; [split; [cbn; lia|reflexivity]|split; [lia|reflexivity]]|]. split; reflexivity. }
  match goal with |- ~ consistent ?t => set (X := t) end.
  assert (F0 : nth_error X 0 = Some (mkBlock 0 [wallF 1; wallF 2; exF 3 "b0" (Some 5); exF 4 "b0" (Some 1);
     exF 5 "periodicTransLow" (Some 0); exF 6 "periodicTransHigh" (Some 0)])) by reflexivity.
  assert (F3 : exists l, nth_error X 3 = Some (mkBlock 3 l) /\ nth_error l 4 = Some (exF 5 "b0" (Some 0))) by (eexists; split; reflexivity).
  destruct F3 as (l & F3 & F5). clearbody X. intros [_ K2].
  destruct (K2 3 5 (exF 5 "b0" (Some 0))) as [[X0 _]|(B & k' & E & J)].
  - eexists; split; [split; [lia|exact F3]|split; [lia|exact F5]].
  - discriminate X0.
  - assert (B = 0) by (cbn in E; congruence). subst B.
    destruct J as (f & g & o & o' & s & _ & (b' & [_ Eb] & K' & Ek') & _ & Ng & _).
    change (Z.to_nat 0) with 0%nat in Eb. rewrite F0 in Eb.
    apply (f_equal (fun o => match o with Some a => a | None => mkBlock 0 [] end)) in Eb. cbn in Eb. subst b'.
    sixFaces K' Ek'; cbn in Ng; discriminate Ng.
Qed.

(** C78 fails when the axis given is not of unit length: it is used as it is, so the copies are
    distorted. *)
Theorem C78_axis_refuted : exists from nseg angle ax to b b',
  consistent (map conn from) /\ notThin (map conn from) /\ rotationOnly (map conn from) /\ (IZR nseg * angle = 360)%R /\
  copyRotate from nseg angle ax = Some to /\ nth_error from 0 = Some b /\ nth_error to (length from) = Some b' /\
  norm (coord b 1 0 0) = 1%R /\ norm (coord b' 1 0 0) = 2%R.
Proof.
  destruct C78_nonvacuous as (C & T & R).
  destruct (C78_sector_connected twoBlocks 4 90%R (0, 0, 2)%R C T R ltac:(lia)) as (to & E & _).
  destruct (copy_inv _ _ _ _ _ E) as (_ & _ & F). destruct (F 1 0 _ ltac:(lia) ltac:(lia) eq_refl) as (b' & Eb & _ & X).
  exists twoBlocks, 4, 90%R, (0, 0, 2)%R, to. do 2 eexists.
  split; [exact C|]. split; [exact T|]. split; [exact R|]. split; [lra|]. split; [exact E|]. split; [reflexivity|]. split; [exact Eb|].
  split.
  - cbn. unfold norm, dot, vx, vy, vz. cbn [fst snd]. transitivity (sqrt 1); [f_equal; lra|apply sqrt_1].
  - rewrite X. replace (1 =? 0) with false by reflexivity. cbn [exSec coord].
    replace (90 * 1 * PI / 180)%R with (PI / 2)%R by field. unfold rotate. rewrite cos_PI2, sin_PI2.
    unfold norm, dot, vx, vy, vz. cbn [fst snd]. transitivity (sqrt (2 * 2)); [f_equal; ring|apply sqrt_square; lra].
Qed.

Print Assumptions C78_sector_connected.
Print Assumptions C78_sector_turned.
Print Assumptions C78_sector_faces_meet.
Print Assumptions C78_thin_refuted.
Print Assumptions C78_translational_refuted.
Print Assumptions C78_axis_refuted.
