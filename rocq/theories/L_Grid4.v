(** generateHalo. *)
From Coq Require Import Reals ZArith String List Bool Lia Lra.
From Verif Require Import M_Topology S_Topology M_Halo S_Halo M_Grid S_Grid L_Grid1.
Import ListNotations.
Open Scope Z_scope.

Definition ha (d : dims) (ng : Z) (a : haxis) (p : P3) : bool := inHaloIdx (size d a) ng (ga a p).
Definition hb (b : bool) : nat := if b then 1%nat else 0%nat.
Definition hc d ng p : nat := (hb (ha d ng AI p) + hb (ha d ng AJ p) + hb (ha d ng AK p))%nat.
Definition inb (d : dims) (ng : Z) (p : P3) : Prop := forall a, 0 <= ga a p < total d ng a.
Definition hplane d ng a s : Prop := inHaloIdx (size d a) ng s = true.

Section GH.
Variables (d : dims) (ng : Z).
Hypotheses (Hng : 1 <= ng) (Hd : forall a, 2 <= size d a).

Lemma halo_iff a s : inHaloIdx (size d a) ng s = true <-> s < ng \/ size d a + ng <= s.
Proof. unfold inHaloIdx. rewrite orb_true_iff, Z.ltb_lt, Z.leb_le. tauto. Qed.
Lemma halo_false a s : inHaloIdx (size d a) ng s = false <-> ng <= s < size d a + ng.
Proof. unfold inHaloIdx. rewrite orb_false_iff, Z.ltb_ge, Z.leb_gt. tauto. Qed.

Lemma tang_hc a p : (tangHalo d ng a (fst (fst p)) (snd (fst p)) (snd p) + hb (ha d ng a p))%nat = hc d ng p.
Proof. unfold tangHalo, hc, ha, ga, hb. destruct a; cbn [getA]; lia. Qed.
Lemma rd_sa {V} (x : array3 V) a s p : rd x a s (fst (fst p)) (snd (fst p)) (snd p) = ap x (sa a s p).
Proof. destruct a; reflexivity. Qed.
Lemma ga_sa a s p : ga a (sa a s p) = s. Proof. destruct a; reflexivity. Qed.
Lemma tang_sa a s p : tangHalo d ng a (fst (fst (sa a s p))) (snd (fst (sa a s p))) (snd (sa a s p)) =
  tangHalo d ng a (fst (fst p)) (snd (fst p)) (snd p).
Proof. destruct a; reflexivity. Qed.
Lemma inb_sa a s p : inb d ng p -> 0 <= s < total d ng a -> inb d ng (sa a s p).
Proof. intros H Hs b. specialize (H b). destruct a, b; cbn in *; auto. Qed.

Section T.
Variable T : P3 -> R.
Local Open Scope R_scope.

Definition Inv (m : nat) (D : haxis -> Z -> Prop) (s : hstate) : Prop :=
  (forall p, 0 <= ap (htemp s) p) /\
  forall p, inb d ng p ->
   ((hc d ng p <= m)%nat -> ap (hx s) p = T p) /\
   ((hc d ng p = S m)%nat -> ap (hx s) p = 0 \/ ap (hx s) p = T p) /\
   ((hc d ng p = S m)%nat -> forall a, D a (ga a p) -> ap (hx s) p = T p) /\
   ((S m < hc d ng p)%nat -> ap (hx s) p = 0).

Definition okPlane (D : haxis -> Z -> Prop) a s : Prop :=
  (0 <= s < total d ng a)%Z /\ ((ng <= s < size d a + ng)%Z \/ (hplane d ng a s /\ D a s)).

Lemma ok_val m D s a s1 p : Inv m D s -> inb d ng p -> okPlane D a s1 -> tangHalo d ng a (fst (fst p)) (snd (fst p)) (snd p) = m ->
  ap (hx s) (sa a s1 p) = T (sa a s1 p).
Proof.
  intros [_ I] B [R1 R2] Tm. pose proof (inb_sa a s1 p B R1) as B1. destruct (I _ B1) as (I1 & _ & I3 & _).
  pose proof (tang_hc a (sa a s1 p)) as Th. rewrite tang_sa, Tm in Th. unfold ha in Th. rewrite ga_sa in Th.
  destruct R2 as [Hin|[Hh Hdn]].
  - apply halo_false in Hin. rewrite Hin in Th. cbn [hb] in Th. apply I1. lia.
  - unfold hplane in Hh. rewrite Hh in Th. cbn [hb] in Th. apply I3 with a. lia. now rewrite ga_sa.
Qed.

Lemma planeOp_inv m D s a s0 s1 s2 : (m <= 2)%nat -> Inv m D s -> hplane d ng a s0 ->
  okPlane D a s1 -> okPlane D a s2 ->
  (forall p, inb d ng p -> ga a p = s0 -> hc d ng p = S m -> T p = 2 * T (sa a s1 p) - T (sa a s2 p)) ->
  Inv m (fun b t => D b t \/ (b = a /\ t = s0)) (planeOp d ng m a (s0, s1, s2) s).
Proof.
  intros Hm I Hp O1 O2 HT. split.
  - destruct I as [It _]. intros [[i j] k]. unfold ap, planeOp; cbn [htemp fst snd]. pose proof (It (i,j,k)) as It'. unfold ap in It'; cbn [fst snd] in It'.
    destruct (_ && _)%bool; auto. destruct m as [|[|[|m]]]; auto. lra.
  - intros p B. pose proof I as [It Ix]. specialize (Ix p B). destruct Ix as (I1 & I2 & I3 & I4).
    set (hit := ((ga a p =? s0)%Z && Nat.eqb (tangHalo d ng a (fst (fst p)) (snd (fst p)) (snd p)) m)%bool).
    destruct hit eqn:Eh.
    + subst hit. apply andb_true_iff in Eh. destruct Eh as [E1 E2]. apply Z.eqb_eq in E1. apply Nat.eqb_eq in E2.
      assert (Hh: hc d ng p = S m). { rewrite <- (tang_hc a p), E2. unfold ha. rewrite E1. unfold hplane in Hp. rewrite Hp. cbn [hb]. lia. }
      assert (V: ap (hx (planeOp d ng m a (s0, s1, s2) s)) p = T p).
      { unfold ap at 1. unfold planeOp; cbn [hx]. rewrite !rd_sa. fold (ga a p). rewrite (proj2 (Z.eqb_eq _ _) E1), (proj2 (Nat.eqb_eq _ _) E2). cbn [andb].
        rewrite (ok_val m D s a s1 p) by auto. rewrite (ok_val m D s a s2 p) by auto. rewrite <- HT by auto.
        fold (ap (hx s) p). fold (ap (htemp s) p). pose proof (It p) as Itp.
        destruct m as [|[|m]]; [reflexivity| |]; unfold Reqb; destruct (Req_EM_T (ap (hx s) p) 0) as [E|E]; auto;
          destruct (I2 Hh) as [?|E']; try contradiction; rewrite E'.
        - lra.
        - field. lra. }
      repeat split; intros; try lia; rewrite V; auto.
    + assert (V: ap (hx (planeOp d ng m a (s0, s1, s2) s)) p = ap (hx s) p).
      { unfold ap at 1. unfold planeOp; cbn [hx]. fold (ga a p). subst hit. rewrite Eh. reflexivity. }
      rewrite V. repeat split; auto.
      intros Hh b [Hb|[-> Hb]]; [now apply I3 with b|].
      exfalso. subst hit. rewrite Hb, Z.eqb_refl in Eh. cbn [andb] in Eh. apply Nat.eqb_neq in Eh. apply Eh.
      pose proof (tang_hc a p) as Th. rewrite Hh in Th. unfold ha in Th. rewrite Hb in Th. unfold hplane in Hp. rewrite Hp in Th. cbn [hb] in Th. lia.
Qed.

Lemma Inv_mono m (D D' : haxis -> Z -> Prop) s : (forall a t, D' a t -> D a t) -> Inv m D s -> Inv m D' s.
Proof. intros H [I1 I2]. split; auto. intros p B. destruct (I2 p B) as (a & b & c & e). repeat split; auto. intros. eapply c; eauto. Qed.

(** low sweep *)
Variable m : nat.
Hypothesis Hm : (m <= 2)%nat.
Hypothesis HTlo : forall a n p, (0 <= n < ng)%Z -> inb d ng p -> ga a p = (ng - n - 1)%Z -> hc d ng p = S m ->
   let '(s0, s1, s2) := loPlanes ng (testDim d m a false <=? ng)%Z n in T p = 2 * T (sa a s1 p) - T (sa a s2 p).
Hypothesis HThi : forall a n p, (0 <= n < ng)%Z -> inb d ng p -> ga a p = (total d ng a - ng + n)%Z -> hc d ng p = S m ->
   let '(s0, s1, s2) := hiPlanes ng (total d ng a) (testDim d m a true <=? ng)%Z n in T p = 2 * T (sa a s1 p) - T (sa a s2 p).

Definition loDone (D : haxis -> Z -> Prop) a n : haxis -> Z -> Prop := fun b t => D b t \/ (b = a /\ ng - n <= t < ng)%Z.
Definition hiDone (D : haxis -> Z -> Prop) a n : haxis -> Z -> Prop := fun b t => D b t \/ (b = a /\ size d a + ng <= t < size d a + ng + n)%Z.

Lemma zrange_snoc n : (0 <= n)%Z -> zrange 0 (n + 1) = zrange 0 n ++ [n].
Proof.
  intros H. unfold zrange. replace (Z.to_nat (n + 1 - 0)) with (Z.to_nat (n - 0) + 1)%nat by lia.
  rewrite seq_app, map_app. simpl. f_equal. f_equal. lia.
Qed.

Lemma testDim_lo a : testDim d m a false = size d a.
Proof. unfold testDim. destruct m; auto. Qed.

Lemma lo_inv D a s : Inv m D s -> Inv m (loDone D a ng) (faceSweep d ng m a false s).
Proof.
  intros I. unfold faceSweep.
  cut (forall n, (0 <= n)%Z -> (n <= ng)%Z -> Inv m (loDone D a n) (fold_left (fun s n =>
     let small := (testDim d m a false <=? ng)%Z in planeOp d ng m a (loPlanes ng small n) s) (zrange 0 n) s)).
  { intros H. apply H; lia. }
  intros n Hn0. pattern n. revert n Hn0. apply natlike_ind.
  - intros _. simpl. apply Inv_mono with D; auto. intros b t [H|H]; auto. lia.
  - intros x Hx IH Hn. unfold Z.succ. rewrite zrange_snoc, fold_left_app by auto. cbn [fold_left]. cbv zeta.
    assert (Hn': (x <= ng)%Z) by lia. specialize (IH Hn'). cbv zeta in IH.
    match type of IH with Inv _ _ ?st => set (S0 := st) in * end. clearbody S0.
    pose proof (Hd a) as Hda. pose proof (HTlo a x) as HT.
    rewrite testDim_lo in *. destruct (loPlanes ng (size d a <=? ng) x) as [[s0 s1] s2] eqn:EP.
    unfold loPlanes in EP.
    assert (E0: s0 = (ng - x - 1)%Z) by (destruct (size d a <=? ng)%Z; inversion EP; lia).
    apply Inv_mono with (fun b t => loDone D a x b t \/ (b = a /\ t = s0)).
    { unfold loDone. intros b t [H|[-> H]]; auto. destruct (Z.eq_dec t s0); auto. left. right. split; auto. lia. }
    apply planeOp_inv; auto.
    + apply halo_iff. lia.
    + unfold okPlane, loDone, hplane. rewrite halo_iff. unfold total. destruct (Z.leb_spec (size d a) ng); inversion EP; subst; split; try lia.
      destruct (Z.eq_dec x 0); [left; lia|right; split; [lia|right; split; [auto|lia]]].
    + unfold okPlane, loDone, hplane. rewrite halo_iff. unfold total. destruct (Z.leb_spec (size d a) ng); inversion EP; subst; split; try lia.
      destruct (Z_le_gt_dec x 1); [left; lia|right; split; [lia|right; split; [auto|lia]]].
    + intros p B G Hh. apply HT; auto; lia.
Qed.

Lemma hi_inv (D : haxis -> Z -> Prop) a s : (forall t, (0 <= t < ng)%Z -> D a t) -> Inv m D s -> Inv m (hiDone D a ng) (faceSweep d ng m a true s).
Proof.
  intros Hlo I. unfold faceSweep.
  cut (forall n, (0 <= n)%Z -> (n <= ng)%Z -> Inv m (hiDone D a n) (fold_left (fun s n =>
     let small := (testDim d m a true <=? ng)%Z in planeOp d ng m a (hiPlanes ng (total d ng a) small n) s) (zrange 0 n) s)).
  { intros H. apply H; lia. }
  intros n Hn0. pattern n. revert n Hn0. apply natlike_ind.
  - intros _. simpl. apply Inv_mono with D; auto. intros b t [H|H]; auto. lia.
  - intros x Hx IH Hn. unfold Z.succ. rewrite zrange_snoc, fold_left_app by auto. cbn [fold_left]. cbv zeta.
    assert (Hn': (x <= ng)%Z) by lia. specialize (IH Hn'). cbv zeta in IH.
    match type of IH with Inv _ _ ?st => set (S0 := st) in * end. clearbody S0.
    pose proof (Hd a) as Hda. pose proof (HThi a x) as HT.
    destruct (hiPlanes ng (total d ng a) (testDim d m a true <=? ng) x) as [[s0 s1] s2] eqn:EP.
    assert (EN: exists N, total d ng a = N /\ (N = size d a + 2 * ng)%Z) by (eexists; split; reflexivity). destruct EN as [N [EN EN']].
    rewrite EN in *. unfold hiPlanes in EP.
    assert (E0: s0 = (size d a + ng + x)%Z) by (destruct (testDim d m a true <=? ng)%Z; inversion EP; lia).
    apply Inv_mono with (fun b t => hiDone D a x b t \/ (b = a /\ t = s0)).
    { unfold hiDone. intros b t [H|[-> H]]; auto. destruct (Z.eq_dec t s0); auto. left. right. split; auto. lia. }
    apply planeOp_inv; auto.
    + apply halo_iff. lia.
    + unfold okPlane, hiDone, hplane. rewrite halo_iff, EN. destruct (Z.leb_spec (testDim d m a true) ng); inversion EP; subst; split; try lia.
      destruct (Z.eq_dec x 0); [left; lia|right; split; [lia|right; split; [auto|lia]]].
    + unfold okPlane, hiDone, hplane. rewrite halo_iff, EN. destruct (Z.leb_spec (testDim d m a true) ng); inversion EP; subst; split; try lia.
      * destruct (Z_le_gt_dec x 1); [left; lia|right; split; [lia|right; split; [auto|lia]]].
      * match goal with |- context [D a ?t] => destruct (Z_le_gt_dec ng t); [left; lia|right; split; [lia|left; apply Hlo; lia]] end.
    + intros p B G Hh. apply HT; auto; lia.
Qed.

Lemma section_inv s : Inv m (fun _ _ => False) s ->
  (forall p, (0 <= ap (htemp (section d ng m s)) p)) /\
  forall p, inb d ng p -> ((hc d ng p <= S m)%nat -> ap (hx (section d ng m s)) p = T p) /\ ((S m < hc d ng p)%nat -> ap (hx (section d ng m s)) p = 0).
Proof.
  intros I. unfold section. cbn [fold_left fst snd].
  apply (lo_inv _ AI) in I. apply (lo_inv _ AJ) in I. apply (lo_inv _ AK) in I.
  apply (hi_inv _ AI) in I; [|intros; unfold loDone; left; left; right; split; [auto|lia]].
  apply (hi_inv _ AJ) in I; [|intros; unfold loDone, hiDone; left; left; right; split; [auto|lia]].
  apply (hi_inv _ AK) in I; [|intros; unfold loDone, hiDone; left; left; right; split; [auto|lia]].
  destruct I as [It I]. split; auto. intros p B. destruct (I p B) as (I1 & I2 & I3 & I4). split; auto.
  intros Hh. destruct (le_lt_dec (hc d ng p) m) as [?|Hl]; [auto|].
  assert (Hx: exists a, ha d ng a p = true).
  { unfold hc in Hl. destruct (ha d ng AI p) eqn:E1; [eauto|]. destruct (ha d ng AJ p) eqn:E2; [eauto|].
    destruct (ha d ng AK p) eqn:E3; [eauto|]. cbn [hb] in Hl. lia. }
  destruct Hx as [a Ha]. apply halo_iff in Ha. pose proof (B a) as Ba. unfold total in Ba.
  apply I3 with a; [lia|]. unfold hiDone, loDone. destruct a; destruct Ha as [Ha|Ha]; intuition lia.
Qed.
End T.

(** every sweep leaves the points alone that do not have exactly m+1 halo coordinates *)
Lemma planeOp_other m a pl s p : hplane d ng a (fst (fst pl)) -> hc d ng p <> S m -> ap (hx (planeOp d ng m a pl s)) p = ap (hx s) p.
Proof.
  destruct pl as [[s0 s1] s2]. cbn [fst]. intros Hp Hh. unfold ap at 1. unfold planeOp; cbn [hx]. fold (ga a p).
  destruct (Z.eqb_spec (ga a p) s0) as [E|]; [|reflexivity]. destruct (Nat.eqb_spec (tangHalo d ng a (fst (fst p)) (snd (fst p)) (snd p)) m) as [E2|]; [|reflexivity].
  exfalso. apply Hh. rewrite <- (tang_hc a p), E2. unfold ha. rewrite E. unfold hplane in Hp. rewrite Hp. cbn [hb]. lia.
Qed.

Lemma faceSweep_other m a h s p : hc d ng p <> S m -> ap (hx (faceSweep d ng m a h s)) p = ap (hx s) p.
Proof.
  intros Hh. unfold faceSweep.
  assert (G: forall l s, (forall n, In n l -> 0 <= n < ng) -> ap (hx (fold_left (fun s n =>
     let small := (testDim d m a h <=? ng)%Z in
     planeOp d ng m a (if h then hiPlanes ng (total d ng a) small n else loPlanes ng small n) s) l s)) p = ap (hx s) p).
  { induction l as [|n l IH]; intros s' Hl; [reflexivity|]. cbn [fold_left]. rewrite IH by (intros; apply Hl; now right). cbv zeta.
    apply planeOp_other; auto. specialize (Hl n (or_introl eq_refl)). apply halo_iff.
    destruct h; unfold hiPlanes, loPlanes, total; destruct (_ <=? _); cbn [fst]; lia. }
  apply G. intros n Hn. now apply zrange_in in Hn.
Qed.
Lemma section_other m s p : hc d ng p <> S m -> ap (hx (section d ng m s)) p = ap (hx s) p.
Proof. intros. unfold section. cbn [fold_left fst snd]. now rewrite !faceSweep_other. Qed.

Lemma hc0 i j k : interiorNode d ng i j k <-> hc d ng (i,j,k) = 0%nat.
Proof.
  unfold interiorNode, hc, ha, ga. cbn [fst snd getA].
  pose proof (halo_false AI i) as A. pose proof (halo_false AJ j) as B. pose proof (halo_false AK k) as C. cbn [size] in *.
  destruct (inHaloIdx (ni d) ng i), (inHaloIdx (nj d) ng j), (inHaloIdx (nk d) ng k); cbn [hb]; split; intros H; try discriminate; try lia.
Qed.
Lemma zeroHalo_hc x p : ap (zeroHalo d ng x) p = if Nat.eqb (hc d ng p) 0 then ap x p else 0%R.
Proof.
  destruct p as [[i j] k]. unfold ap, zeroHalo, hc, ha, ga. cbn [fst snd getA size].
  destruct (inHaloIdx (ni d) ng i), (inHaloIdx (nj d) ng j), (inHaloIdx (nk d) ng k); reflexivity.
Qed.

Theorem halo_interior x i j k : interiorNode d ng i j k -> generateHalo d ng x i j k = x i j k.
Proof.
  intros H. apply hc0 in H. change (ap (generateHalo d ng x) (i,j,k) = ap x (i,j,k)).
  unfold generateHalo. cbv zeta. rewrite section_other by lia. cbn [hx]. rewrite !section_other by lia. cbn [hx].
  rewrite zeroHalo_hc, H. reflexivity.
Qed.

Local Open Scope R_scope.
Definition AF (c : R * R * R * R) (p : P3) : R := affine (fst (fst (fst c))) (snd (fst (fst c))) (snd (fst c)) (snd c) (fst (fst p)) (snd (fst p)) (snd p).
Lemma AF_line c a s0 s1 s2 p : ga a p = s0 -> s0 = (2 * s1 - s2)%Z -> AF c p = 2 * AF c (sa a s1 p) - AF c (sa a s2 p).
Proof.
  intros <- E. apply (f_equal IZR) in E. rewrite minus_IZR, mult_IZR in E. unfold AF, affine. destruct a; unfold ga in E; cbn [sa fst snd getA] in *; rewrite E; ring.
Qed.

Lemma Inv_start (T : P3 -> R) m s : (forall p, 0 <= ap (htemp s) p) ->
  (forall p, inb d ng p -> ((hc d ng p <= m)%nat -> ap (hx s) p = T p) /\ ((m < hc d ng p)%nat -> ap (hx s) p = 0)) -> Inv T m (fun _ _ => False) s.
Proof.
  intros H1 H2. split; auto. intros p B. destruct (H2 p B) as [A1 A2]. repeat split; auto.
  - intros H. left. apply A2. lia.
  - intros _ a [].
  - intros H. apply A2. lia.
Qed.

Theorem halo_affine x c0 ci cj ck :
  (forall i j k, interiorNode d ng i j k -> x i j k = affine c0 ci cj ck i j k) ->
  forall i j k, nodeIn d ng i j k -> generateHalo d ng x i j k = affine c0 ci cj ck i j k.
Proof.
  intros Hx i j k Hn. set (T := AF (c0,ci,cj,ck)).
  assert (B: inb d ng (i,j,k)). { unfold nodeIn in Hn. intros []; unfold ga, total; cbn [fst snd getA size]; lia. }
  change (ap (generateHalo d ng x) (i,j,k) = T (i,j,k)). unfold generateHalo. cbv zeta.
  assert (LO: forall m a n p, (0 <= n < ng)%Z -> inb d ng p -> ga a p = (ng - n - 1)%Z -> hc d ng p = S m ->
   let '(s0, s1, s2) := loPlanes ng (testDim d m a false <=? ng)%Z n in T p = 2 * T (sa a s1 p) - T (sa a s2 p)).
  { intros m a n p H1 H2 H3 H4. unfold loPlanes. destruct (_ <=? _)%Z; apply AF_line with (1 := H3); lia. }
  assert (HI: forall m a n p, (0 <= n < ng)%Z -> inb d ng p -> ga a p = (total d ng a - ng + n)%Z -> hc d ng p = S m ->
   let '(s0, s1, s2) := hiPlanes ng (total d ng a) (testDim d m a true <=? ng)%Z n in T p = 2 * T (sa a s1 p) - T (sa a s2 p)).
  { intros m a n p H1 H2 H3 H4. unfold hiPlanes. destruct (_ <=? _)%Z; apply AF_line with (1 := H3); lia. }
  assert (S0: Inv T 0 (fun _ _ => False) (mkH (zeroHalo d ng x) (fun _ _ _ => 0))).
  { apply Inv_start. - intros p. unfold ap. cbn. lra.
    - intros [[u v] w] Bp. cbn [hx]. rewrite zeroHalo_hc. split; intros Hh.
      + assert (hc d ng (u,v,w) = 0)%nat as E by lia. rewrite E. cbn [Nat.eqb]. apply hc0 in E. unfold ap, T, AF; cbn [fst snd]. now apply Hx.
      + destruct (hc d ng (u,v,w)); [lia|reflexivity]. }
  apply section_inv in S0; auto. destruct S0 as [t1 S1].
  apply (Inv_start T 1) in S1; auto.
  apply section_inv in S1; auto. destruct S1 as [t2 S2].
  assert (S3: Inv T 2 (fun _ _ => False) (mkH (hx (section d ng 1 (section d ng 0 (mkH (zeroHalo d ng x) (fun _ _ _ => 0))))) (fun _ _ _ => 0))).
  { apply Inv_start; [intros p; unfold ap; cbn; lra|]. exact S2. }
  apply section_inv in S3; auto. destruct S3 as [_ S4]. apply S4; auto.
  unfold hc, hb. destruct (ha _ _ AI _), (ha _ _ AJ _), (ha _ _ AK _); lia.
  all: try first [exact (LO 0%nat)|exact (LO 1%nat)|exact (LO 2%nat)|exact (HI 0%nat)|exact (HI 1%nat)|exact (HI 2%nat)].
Qed.

(** Reflection about the face plane, when every dimension exceeds the number of halo layers. *)
Definition facePlane (a : haxis) (s : Z) : Z := if (s <? ng)%Z then ng else (size d a + ng - 1)%Z.
Definition refl (x : array3 R) (a : haxis) (p : P3) : R :=
  2 * ap x (sa a (facePlane a (ga a p)) p) - ap x (sa a (2 * facePlane a (ga a p) - ga a p)%Z p).
Definition TR (x : array3 R) (p : P3) : R :=
  if Nat.eqb (hc d ng p) 0 then ap x p
  else if ha d ng AI p then refl x AI p else if ha d ng AJ p then refl x AJ p else refl x AK p.

Lemma TR_int x p : hc d ng p = 0%nat -> TR x p = ap x p.
Proof. intros H. unfold TR. now rewrite H. Qed.
Lemma TR_face x a p : hc d ng p = 1%nat -> ha d ng a p = true -> TR x p = refl x a p.
Proof.
  intros H1 H2. unfold TR. rewrite H1. cbn [Nat.eqb]. unfold hc in H1.
  destruct a; [now rewrite H2| |]; destruct (ha d ng AI p) eqn:E1, (ha d ng AJ p) eqn:E2, (ha d ng AK p) eqn:E3; cbn [hb] in H1; try discriminate; auto.
Qed.
Lemma hc_sa a s p : ha d ng a p = true -> hc d ng p = 1%nat -> (ng <= s < size d a + ng)%Z -> hc d ng (sa a s p) = 0%nat.
Proof.
  intros H1 H2 H3. pose proof (tang_hc a p) as A. pose proof (tang_hc a (sa a s p)) as B. rewrite tang_sa in B.
  rewrite H1, H2 in A. unfold ha in B. rewrite ga_sa in B. apply halo_false in H3. rewrite H3 in B. cbn [hb] in *. lia.
Qed.

Theorem halo_reflect x a p : (forall b, (ng < size d b)%Z) -> inb d ng p -> hc d ng p = 1%nat -> ha d ng a p = true ->
  ap (generateHalo d ng x) p = refl x a p.
Proof.
  intros Big B H1 Ha. unfold generateHalo. cbv zeta. rewrite section_other by lia. cbn [hx]. rewrite section_other by lia.
  rewrite <- (TR_face x a p) by auto.
  assert (td: forall b h, (testDim d 0 b h <=? ng)%Z = false).
  { intros b h. apply Z.leb_gt. unfold testDim. destruct h; [apply (Big AI)|apply Big]. }
  assert (S0: Inv (TR x) 0 (fun _ _ => False) (mkH (zeroHalo d ng x) (fun _ _ _ => 0))).
  { apply Inv_start. - intros q. unfold ap. cbn. lra.
    - intros q Bq. cbn [hx]. rewrite zeroHalo_hc. split; intros Hh.
      + assert (hc d ng q = 0)%nat as E by lia. rewrite TR_int, E by auto. reflexivity.
      + destruct (hc d ng q); [lia|reflexivity]. }
  apply section_inv in S0; auto.
  - destruct S0 as [_ S0]. apply S0; auto. lia.
  - intros b n q Hn Bq G Hq. rewrite td. unfold loPlanes. specialize (Big b).
    assert (Hb: ha d ng b q = true) by (unfold ha; apply halo_iff; lia).
    rewrite (TR_face x b q) by auto. unfold refl, facePlane. rewrite G. destruct (Z.ltb_spec (ng - n - 1) ng); [|lia].
    replace (2 * ng - (ng - n - 1))%Z with (ng + n + 1)%Z by lia.
    rewrite !TR_int by (apply hc_sa; auto; lia). reflexivity.
  - intros b n q Hn Bq G Hq. rewrite td. unfold hiPlanes. specialize (Big b).
    assert (Hb: ha d ng b q = true). { unfold ha. apply halo_iff. unfold total in G. lia. }
    rewrite (TR_face x b q) by auto. unfold refl, facePlane. rewrite G. unfold total.
    replace (size d b + 2 * ng - ng + n)%Z with (size d b + ng + n)%Z by lia.
    destruct (Z.ltb_spec (size d b + ng + n) ng); [lia|].
    replace (size d b + 2 * ng - ng - 1)%Z with (size d b + ng - 1)%Z by lia.
    replace (2 * (size d b + ng - 1) - (size d b + ng + n))%Z with (size d b + 2 * ng - ng - n - 2)%Z by lia.
    rewrite !TR_int by (apply hc_sa; auto; lia). reflexivity.
Qed.
End GH.
