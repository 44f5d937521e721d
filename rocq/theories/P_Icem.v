(** C131-C133: conversion of ICEM grids.  Vocabulary: S_Icem, S_Topology.  Model: M_Icem. *)
From Coq Require Import ZArith String Ascii List Bool Lia.
From Verif Require Import M_Config P_Config M_Topology S_Topology L_Topology P_Topology M_Icem S_Icem.
Import ListNotations.
Open Scope string_scope.

Lemma face_lookup c : lookup ((if prefix "-" (dirTok c) then "small_" else "large_") ++ lastChar (dirTok c)) faceMapping = Some (saxis_face c).
Proof. destruct c as [[] []]; reflexivity. Qed.
Lemma dash_dirTok c : prefix "-" (dirTok c) = negb (snd c). Proof. destruct c as [[] []]; reflexivity. Qed.
Lemma noDash_dirTok c : noDash (dirTok c) = axisName (fst c). Proof. destruct c as [[] []]; reflexivity. Qed.
Lemma otherSense_dirTok a : otherSense (dirTok a) = dirTok (flip a). Proof. destruct a as [[] []]; reflexivity. Qed.
Lemma outward_saxis n c : outward n c <-> saxis_face c = n.
Proof.
  rewrite outward_face_saxis. split; [intros [H ->]; now apply saxis_face_saxis|]. intros <-. split; [apply saxis_face_range|now rewrite face_saxis_face].
Qed.
Lemma flip_flip s : flip (flip s) = s. Proof. destruct s as [a b]. unfold flip. cbn. now rewrite negb_involutive. Qed.
Lemma entry o n c a : (outward n c -> act o c = flip a) -> (~ outward n c -> act o c = a) -> orientEntry n (dirTok c) (dirTok a) = Some (axisName (fst c), dirTok (o (fst c))).
Proof.
  intros H1 H2. unfold orientEntry. cbv zeta. rewrite face_lookup, !dash_dirTok, noDash_dirTok, !otherSense_dirTok.
  assert (K : (if negb (snd c) then axisName (fst c) else dirTok c) = axisName (fst c)) by (destruct c as [x []]; reflexivity). rewrite K. do 2 f_equal.
  destruct (Z.eqb_spec (saxis_face c) n) as [E|E].
  - apply outward_saxis in E. specialize (H1 E). unfold act in H1. cbv zeta in H1. destruct (snd c); cbn [negb]; [now rewrite H1|]. f_equal. rewrite <- (flip_flip a), <- H1. now rewrite flip_flip.
  - assert (E' : ~ outward n c) by (intros X; apply outward_saxis in X; contradiction). specialize (H2 E'). unfold act in H2. cbv zeta in H2. destruct (snd c); cbn [negb]; [now rewrite H2|].
    f_equal. rewrite <- H2. apply flip_flip.
Qed.
Lemma axisName_inj a b : axisName a = axisName b -> a = b. Proof. destruct a, b; cbn; intros; congruence. Qed.
Lemma digit_lookup s : lookup (dirTok s) orientationMapping = Some (saxis_digit s). Proof. destruct s as [[] []]; reflexivity. Qed.
Lemma char_digit z : char_of_int z = digit_char z. Proof. unfold char_of_int, digit_char. now rewrite Z.add_comm. Qed.
Lemma three (x y z : axis) : NoDup [x; y; z] -> forall b, In b [x; y; z].
Proof.
  intros H b. assert (x <> y /\ x <> z /\ y <> z) as (A & B & C). { inversion H as [|? ? H1 H2]; subst. inversion H2 as [|? ? H3 _]; subst. cbn in H1, H3. intuition congruence. }
  clear H. destruct x, y, z, b; cbn; intuition congruence.
Qed.
(** the orientation written for a joint is the textual form of its true orientation *)
Lemma orientation_ok o n cs adjs : listed o n cs adjs -> exists d, orientDict n (map dirTok cs) (map dirTok adjs) [] = Some d /\ orientString d = Some (show o).
Proof.
  intros (ND & L1 & L2 & H). destruct cs as [|c1 [|c2 [|c3 [|? ?]]]]; try discriminate L1. destruct adjs as [|a1 [|a2 [|a3 [|? ?]]]]; try discriminate L2.
  destruct (H 0%nat c1 a1 eq_refl eq_refl) as [P1 Q1]. destruct (H 1%nat c2 a2 eq_refl eq_refl) as [P2 Q2]. destruct (H 2%nat c3 a3 eq_refl eq_refl) as [P3 Q3].
  cbn [map orientDict]. rewrite (entry o n c1 a1 P1 Q1), (entry o n c2 a2 P2 Q2), (entry o n c3 a3 P3 Q3). eexists. split; [reflexivity|].
  cbn [map] in ND. set (d := assign (axisName (fst c3)) _ _).
  assert (G : forall b, lookup (axisName b) d = Some (dirTok (o b))).
  { intros b. unfold d. rewrite !lookup_assign. destruct (three _ _ _ ND b) as [<-|[<-|[<-|[]]]].
    - destruct (String.eqb_spec (axisName (fst c1)) (axisName (fst c3))) as [E|_]; [apply axisName_inj in E; now rewrite E|].
      destruct (String.eqb_spec (axisName (fst c1)) (axisName (fst c2))) as [E|_]; [apply axisName_inj in E; now rewrite E|]. now rewrite String.eqb_refl.
    - destruct (String.eqb_spec (axisName (fst c2)) (axisName (fst c3))) as [E|_]; [apply axisName_inj in E; now rewrite E|]. now rewrite String.eqb_refl.
    - now rewrite String.eqb_refl. }
  unfold orientString, orientDigit. pose proof (G I) as GI. pose proof (G J) as GJ. pose proof (G S_Topology.K) as GK. cbn [axisName] in GI, GJ, GK. rewrite GI, GJ, GK, !digit_lookup, !char_digit. reflexivity.
Qed.

(** ** faces of a block *)
Definition getf (fs : list face) (n : Z) : option face := nth_error fs (Z.to_nat (n - 1)).
(** the six faces, in order *)
Definition six6 (fs : list face) : Prop := map nface fs = [1; 2; 3; 4; 5; 6]%Z.
Lemma set_nth_same {A} (l : list A) i v : (i < List.length l)%nat -> nth_error (set_nth l i v) i = Some v.
Proof. revert i. induction l as [|a l IH]; intros [|i] H; cbn in *; try lia; [reflexivity|]. apply IH. lia. Qed.
Lemma set_nth_other {A} (l : list A) i j v : i <> j -> nth_error (set_nth l i v) j = nth_error l j.
Proof. revert i j. induction l as [|a l IH]; intros [|i] [|j] H; cbn; try reflexivity; [congruence|]. apply IH. lia. Qed.
Lemma nth6 n : (1 <= n <= 6)%Z -> nth_error [1; 2; 3; 4; 5; 6]%Z (Z.to_nat (n - 1)) = Some n.
Proof. intros H. assert (C : In n six) by now apply six_range. cbn in C. destruct C as [<-|[<-|[<-|[<-|[<-|[<-|[]]]]]]]; reflexivity. Qed.
Lemma six6_get fs n : six6 fs -> (1 <= n <= 6)%Z -> exists f, getf fs n = Some f /\ nface f = n.
Proof.
  intros W H. unfold getf, six6 in *. assert (L : List.length fs = 6%nat) by (rewrite <- (map_length nface), W; reflexivity). destruct (nth_error fs (Z.to_nat (n - 1))) as [f|] eqn:E; [|apply nth_error_None in E; lia].
  exists f. split; [reflexivity|]. pose proof (map_nth_error nface _ _ E) as Q. rewrite W, (nth6 n H) in Q. congruence.
Qed.
Lemma map_set_nth {A B} (g : A -> B) l i v : map g (set_nth l i v) = set_nth (map g l) i (g v).
Proof. revert i. induction l as [|a l IH]; intros [|i]; cbn; try reflexivity. now rewrite IH. Qed.
Lemma set_nth_id {A} (l : list A) i v : nth_error l i = Some v -> set_nth l i v = l.
Proof. revert i. induction l as [|a l IH]; intros [|i] H; cbn in *; try discriminate; [congruence|]. now rewrite IH. Qed.
Lemma onFace_ok n g fs f f' : six6 fs -> (1 <= n <= 6)%Z -> getf fs n = Some f -> g f = Some f' -> nface f' = n ->
  exists fs', onFace n g fs = Some fs' /\ six6 fs' /\ getf fs' n = Some f' /\ forall m, (1 <= m <= 6)%Z -> m <> n -> getf fs' m = getf fs m.
Proof.
  intros W H G E N. unfold onFace. assert (B : ((1 <=? n) && (n <=? 6))%Z = true) by (apply andb_true_iff; split; apply Z.leb_le; lia). rewrite B. unfold getf in *. rewrite G, E. eexists. split; [reflexivity|].
  assert (L : List.length fs = 6%nat) by (rewrite <- (map_length nface), W; reflexivity). split; [|split].
  - unfold six6 in *. rewrite map_set_nth, N. rewrite <- W. apply set_nth_id. rewrite W. now apply nth6.
  - apply set_nth_same. lia.
  - intros m Hm Hne. apply set_nth_other. lia.
Qed.

(** ** ranges *)
Section Ranges.
Variable showZ : Z -> string.
Hypothesis showZ_inj : forall a b, showZ a = showZ b -> a = b.
Hypothesis showZ_1 : showZ 1 = "1".
Lemma range_entry last n lo hi : onRange last n lo hi -> exists a up, outward n (a, up) /\
  (forall b, b <> a -> String.eqb (showZ (lo b)) (showZ (hi b)) = false) /\ String.eqb (showZ (lo a)) (showZ (hi a)) = true /\
  lookup ((if String.eqb (showZ (lo a)) "1" then "small_" else "large_") ++ axisName a) faceMapping = Some n.
Proof.
  intros (a & up & Ho & Hr & E & El & Hl & Hb). exists a, up. split; [exact Ho|]. split; [|split].
  - intros b Hne. destruct (String.eqb_spec (showZ (lo b)) (showZ (hi b))) as [X|]; [|reflexivity]. apply showZ_inj in X. specialize (Hb b Hne). lia.
  - rewrite E. apply String.eqb_refl.
  - apply outward_saxis in Ho. rewrite El. destruct up.
    + destruct (String.eqb_spec (showZ (last a)) "1") as [X|_]; [rewrite <- showZ_1 in X; apply showZ_inj in X; lia|]. rewrite <- Ho. destruct a; reflexivity.
    + rewrite showZ_1, String.eqb_refl. rewrite <- Ho. destruct a; reflexivity.
Qed.
Definition rangeToks (lo hi : axis -> Z) (bs : list axis) : list (string * string * string) := map (fun b => (showZ (lo b), showZ (hi b), axisName b)) bs.
Lemma rangeFace_ok last n lo hi bs : onRange last n lo hi -> (forall b, In b bs) -> rangeFace (rangeToks lo hi bs) = Some n.
Proof.
  intros H All. destruct (range_entry _ _ _ _ H) as (a & up & _ & Hne & He & Hl). specialize (All a). induction bs as [|b bs IH]; [contradiction|]. cbn [rangeToks map rangeFace].
  destruct (axis_eqb b a) eqn:E; [apply axis_eqb_eq in E; subst b; rewrite He; exact Hl|].
  assert (b <> a) by (intros ->; destruct a; discriminate). rewrite Hne by assumption. apply IH. destruct All; [contradiction|assumption].
Qed.
Lemma checkFace_ok last n lo hi bs : onRange last n lo hi -> checkFace n (rangeToks lo hi bs) = Some tt.
Proof.
  intros H. destruct (range_entry _ _ _ _ H) as (a & up & _ & Hne & He & Hl). induction bs as [|b bs IH]; [reflexivity|]. cbn [rangeToks map checkFace].
  destruct (axis_eqb b a) eqn:E; [apply axis_eqb_eq in E; subst b; rewrite He, Hl, Z.eqb_refl; exact IH|].
  assert (b <> a) by (intros ->; destruct a; discriminate). rewrite Hne by assumption. exact IH.
Qed.
Lemma checkFace_wrong last n want lo hi bs : onRange last n lo hi -> (forall b, In b bs) -> want <> n -> checkFace want (rangeToks lo hi bs) = None.
Proof.
  intros H All W. destruct (range_entry _ _ _ _ H) as (a & up & _ & Hne & He & Hl). specialize (All a). induction bs as [|b bs IH]; [contradiction|]. cbn [rangeToks map checkFace].
  destruct (axis_eqb b a) eqn:E; [apply axis_eqb_eq in E; subst b; rewrite He, Hl; destruct (Z.eqb_spec n want); [congruence|reflexivity]|].
  assert (b <> a) by (intros ->; destruct a; discriminate). rewrite Hne by assumption. apply IH. destruct All; [contradiction|assumption].
Qed.

(** ** C131 *)
Variable domain : string -> option Z.
(** the two lines ICEM writes for the joint of face [n], of range [lo, hi], with domain number [nb] at orientation [o] *)
Definition jointLines (last : axis -> Z) (n nb : Z) (o : orient) (this adj : list string) : Prop :=
  exists c1 c2 c3 a1 a2 a3 x0 x1 y0 dom rest rest' lo hi, listed o n [c1; c2; c3] [a1; a2; a3] /\ onRange last n lo hi /\ domain dom = Some nb /\
    this = ([x0; x1; dirTok c1; dirTok c2; dirTok c3; "f"; showZ (lo (fst c1)); showZ (lo (fst c2)); showZ (lo (fst c3)); showZ (hi (fst c1)); showZ (hi (fst c2)); showZ (hi (fst c3))] ++ rest)%list /\
    adj = ([y0; dom; dirTok a1; dirTok a2; dirTok a3] ++ rest')%list.
(** the face then has neighbour nb - 1 (counting from 0) and the true orientation; its type and family, and the other faces, are as before *)
Lemma connPair_ok last n nb o this adj fs : six6 fs -> (1 <= n <= 6)%Z -> jointLines last n nb o this adj ->
  exists f fs', getf fs n = Some f /\ connPair domain n this adj fs = Some fs' /\ six6 fs' /\ getf fs' n = Some (mkFace n (bcFam f) (bcType f) (Some (nb - 1)%Z) (Some (show o))) /\
    forall m, (1 <= m <= 6)%Z -> m <> n -> getf fs' m = getf fs m.
Proof.
  intros W Hn (c1 & c2 & c3 & a1 & a2 & a3 & x0 & x1 & y0 & dom & rest & rest' & lo & hi & HL & HR & HD & -> & ->).
  destruct (six6_get _ _ W Hn) as (f & Gf & Nf). exists f.
  destruct (orientation_ok _ _ _ _ HL) as (d & Ed & Eo). cbn [map] in Ed.
  pose proof (checkFace_ok last n lo hi [fst c1; fst c2; fst c3] HR) as Ck. cbn [rangeToks map] in Ck.
  destruct (onFace_ok n (fun f => set_neighbor f (PInt (nb - 1))) fs f _ W Hn Gf eq_refl Nf) as (fs1 & E1 & W1 & G1 & O1).
  destruct (onFace_ok n (fun f => set_orientation f (PStr (show o))) fs1 _ _ W1 Hn G1 eq_refl Nf) as (fs2 & E2 & W2 & G2 & O2).
  exists fs2. split; [exact Gf|]. split; [|split; [exact W2|split]].
  - unfold connPair. cbn [app rangeOf bind nth_error dirsOf]. rewrite !noDash_dirTok, Ck. cbn [bind]. change (String.eqb "f" "f") with true. cbn [negb]. rewrite HD. cbn [bind]. rewrite Ed. cbn [bind]. rewrite E1. cbn [bind]. rewrite Eo. cbn [bind]. exact E2.
  - rewrite G2. cbn. now rewrite Nf.
  - intros m Hm Hne. rewrite O2, O1 by assumption. reflexivity.
Qed.
Lemma connPair_order last n want nb o this adj fs : want <> n -> jointLines last n nb o this adj -> connPair domain want this adj fs = None.
Proof.
  intros Hw (c1 & c2 & c3 & a1 & a2 & a3 & x0 & x1 & y0 & dom & rest & rest' & lo & hi & HL & HR & HD & -> & ->).
  pose proof (three _ _ _ (proj1 HL)) as T. pose proof (checkFace_wrong last n want lo hi [fst c1; fst c2; fst c3] HR T Hw) as Ck. cbn [rangeToks map] in Ck.
  unfold connPair. cbn [app rangeOf bind]. rewrite !noDash_dirTok, Ck. reflexivity.
Qed.
Lemma connFaces_ok last nb o pair : forall ns fs, NoDup ns -> (forall n, In n ns -> (1 <= n <= 6)%Z) -> six6 fs ->
  (forall n, In n ns -> jointLines last n (nb n) (o n) (fst (pair n)) (snd (pair n))) -> forall lines, lines = flat_map (fun n => [fst (pair n); snd (pair n)]) ns ->
  exists fs', connFaces domain ns lines fs = Some fs' /\ six6 fs' /\ forall m f, (1 <= m <= 6)%Z -> getf fs m = Some f ->
    (In m ns -> getf fs' m = Some (mkFace m (bcFam f) (bcType f) (Some (nb m - 1)%Z) (Some (show (o m))))) /\ (~ In m ns -> getf fs' m = Some f).
Proof.
  induction ns as [|n ns IH]; intros fs ND R W HJ lines ->.
  - exists fs. split; [reflexivity|]. split; [exact W|]. intros m f Hm G. split; [intros []|auto].
  - inversion ND as [|? ? Hn1 ND']; subst. pose proof (R n (or_introl eq_refl)) as Rn. destruct (connPair_ok last n (nb n) (o n) _ _ fs W Rn (HJ n (or_introl eq_refl))) as (f0 & fs1 & G0 & E1 & W1 & G1 & O1).
    destruct (IH fs1 ND' (fun m Hm => R m (or_intror Hm)) W1 (fun m Hm => HJ m (or_intror Hm)) _ eq_refl) as (fs' & E2 & W2 & H2).
    exists fs'. split; [cbn [connFaces flat_map app]; rewrite E1; exact E2|]. split; [exact W2|]. intros m f Hm G. destruct (Z.eq_dec m n) as [->|Hne].
    + destruct (H2 n _ Rn G1) as [_ K2]. specialize (K2 Hn1). assert (f = f0) by congruence. subst f0. split; [intros _; exact K2|intros C; exfalso; apply C; now left].
    + rewrite <- (O1 m Hm Hne) in G. destruct (H2 m f Hm G) as [K1 K2]. split; [intros [C|C]; [congruence|now apply K1]|intros C; apply K2; intros X; apply C; now right].
Qed.
Lemma six6_in fs m : six6 fs -> (1 <= m <= 6)%Z -> forall f, getf fs m = Some f -> (In m (internalFaces fs) <-> bcType f = "b0").
Proof.
  intros W Hm f G. destruct (six6_get _ _ W Hm) as (f' & G' & N'). assert (f' = f) by congruence. subst f'. unfold internalFaces. rewrite in_map_iff. split.
  - intros (g & Hg & Hi). apply filter_In in Hi. destruct Hi as [Hi Ht]. apply String.eqb_eq in Ht. apply In_nth_error in Hi. destruct Hi as [k Hk].
    pose proof (map_nth_error nface _ _ Hk) as Q. pose proof W as W'. unfold six6 in W'. rewrite W' in Q. rewrite Hg in Q. unfold getf in G.
    assert (k = Z.to_nat (m - 1)). { destruct k as [|[|[|[|[|[|[|k]]]]]]]; cbn in Q; try discriminate Q; assert (m = _) as X by (symmetry; apply (f_equal (fun o => match o with Some z => z | None => 0%Z end)) in Q; exact Q); rewrite X; reflexivity. }
    subst k. assert (g = f) by congruence. now subst.
  - intros Ht. exists f. split; [exact N'|]. apply filter_In. split; [unfold getf in G; now apply nth_error_In in G|now apply String.eqb_eq].
Qed.
Lemma internal_nodup fs : six6 fs -> NoDup (internalFaces fs) /\ forall n, In n (internalFaces fs) -> (1 <= n <= 6)%Z.
Proof.
  intros W. unfold internalFaces. assert (ND : NoDup (map nface fs)) by (rewrite W; repeat constructor; cbn; lia).
  split.
  - assert (R : forall n, In n (map nface (filter (fun f => String.eqb (bcType f) "b0") fs)) -> In n (map nface fs)). { intros n Hn. apply in_map_iff in Hn. destruct Hn as (f & E & Hf). apply filter_In in Hf. apply in_map_iff. exists f. tauto. }
    clear R W. induction fs as [|f fs IH]; [constructor|]. cbn [map] in ND. inversion ND as [|? ? H1 H2]; subst. cbn [filter]. destruct (String.eqb _ _); [|now apply IH].
    cbn [map]. constructor; [|now apply IH]. intros Hi. apply H1. apply in_map_iff in Hi. destruct Hi as (g & E & Hg). apply filter_In in Hg. apply in_map_iff. exists g. tauto.
  - intros n Hn. apply in_map_iff in Hn. destruct Hn as (f & E & Hf). apply filter_In in Hf. assert (In n (map nface fs)) by (apply in_map_iff; exists f; tauto). rewrite W in H. cbn in H. lia.
Qed.
End Ranges.
(** A block's connectivity section, listing a joint for every interior face in order: every interior face gets its neighbour (numbered from 0) and its true orientation, and keeps type and family; the other faces are untouched *)
Theorem C131_connectivity : forall showZ domain last fs nb o pair, (forall a b, showZ a = showZ b -> a = b) -> showZ 1%Z = "1" -> map nface fs = [1; 2; 3; 4; 5; 6]%Z ->
  (forall n f, (1 <= n <= 6)%Z -> getf fs n = Some f -> bcType f = "b0" -> jointLines showZ domain last n (nb n) (o n) (fst (pair n)) (snd (pair n))) ->
  exists fs', connSection domain (flat_map (fun n => [fst (pair n); snd (pair n)]) (internalFaces fs)) fs = Some fs' /\ map nface fs' = [1; 2; 3; 4; 5; 6]%Z /\
    forall m f, (1 <= m <= 6)%Z -> getf fs m = Some f ->
      (bcType f = "b0" -> getf fs' m = Some (mkFace m (bcFam f) (bcType f) (Some (nb m - 1)%Z) (Some (show (o m))))) /\ (bcType f <> "b0" -> getf fs' m = Some f).
Proof.
  intros showZ domain last fs nb o pair Hi H1 W HJ. destruct (internal_nodup fs W) as [ND R].
  assert (HJ' : forall n, In n (internalFaces fs) -> jointLines showZ domain last n (nb n) (o n) (fst (pair n)) (snd (pair n))).
  { intros n Hn. destruct (six6_get _ _ W (R n Hn)) as (f & G & _). apply (HJ n f (R n Hn) G). now apply (six6_in fs n W (R n Hn) f G). }
  destruct (connFaces_ok showZ Hi H1 domain last nb o pair (internalFaces fs) fs ND R W HJ' _ eq_refl) as (fs' & E & W' & H). exists fs'. split; [exact E|]. split; [exact W'|].
  intros m f Hm G. destruct (H m f Hm G) as [A B]. pose proof (six6_in fs m W Hm f G) as Q. split; intros X; [apply A|apply B]; rewrite Q; assumption.
Qed.
(** lines out of order stop the conversion *)
Theorem C131_order : forall showZ domain last n want nb o this adj fs, (forall a b, showZ a = showZ b -> a = b) -> showZ 1%Z = "1" -> want <> n -> jointLines showZ domain last n nb o this adj ->
  connPair domain want this adj fs = None.
Proof. intros showZ domain last n want nb o this adj fs Hi H1. exact (connPair_order showZ Hi H1 domain last n want nb o this adj fs). Qed.
(** the two blocks of a joint, each listing it: face n of the one and face m of the other name each other, with inverse orientations *)
Theorem C131_reciprocal : forall o n cs adjs i c a m, legal o -> listed o n cs adjs -> nth_error cs i = Some c -> nth_error adjs i = Some a -> outward n c -> outward m a ->
  neighborNface n (show o) = Some m /\
  exists o', neighborOrientation (show o) = Some (show o') /\ inverse o o' /\ listed o' m adjs cs /\ neighborNface m (show o') = Some n.
Proof.
  intros o n cs adjs i c a m L HL Hc Ha On Om. destruct HL as (ND & L1 & L2 & H). destruct (H _ _ _ Hc Ha) as [P _]. specialize (P On).
  destruct (C02_neighbor_face_geometric o n c L On) as (m' & E1 & R' & O' & s' & E2 & E3).
  assert (m' = m). { rewrite P, flip_flip in O'. apply outward_saxis in O'. apply outward_saxis in Om. congruence. } subst m'.
  split; [exact E1|]. destruct (C01_neighbor_orientation_inverse o L) as (o' & E4 & L' & I1 & I2 & E5). exists o'. split; [exact E4|]. split; [exact I1|].
  assert (s' = show o') by congruence. subst s'. split; [|exact E3].
  assert (In1 : forall j c' a', nth_error cs j = Some c' -> nth_error adjs j = Some a' -> act o c' = a' \/ act o c' = flip a').
  { intros j c' a' X Y. destruct (H _ _ _ X Y) as [A B]. destruct (Z.eq_dec (saxis_face c') n) as [E|E]; [right; apply A; now apply outward_saxis|left; apply B; intros Z; apply outward_saxis in Z; contradiction]. }
  assert (FA : forall c' s, act o c' = s \/ act o c' = flip s -> fst (o (fst c')) = fst s). { intros c' s. unfold act. cbv zeta. intros [<-|Q]; destruct (snd c'); try reflexivity; try (rewrite Q; reflexivity). unfold flip in Q. congruence. }
  split; [|split; [exact L2|split; [exact L1|]]].
  - destruct cs as [|c1 [|c2 [|c3 [|? ?]]]]; try discriminate L1. destruct adjs as [|a1 [|a2 [|a3 [|? ?]]]]; try discriminate L2.
    pose proof (FA _ _ (In1 0%nat c1 a1 eq_refl eq_refl)) as F1. pose proof (FA _ _ (In1 1%nat c2 a2 eq_refl eq_refl)) as F2. pose proof (FA _ _ (In1 2%nat c3 a3 eq_refl eq_refl)) as F3.
    cbn [map] in *. assert (fst c1 <> fst c2 /\ fst c1 <> fst c3 /\ fst c2 <> fst c3) as (A & B & C). { inversion ND as [|? ? H1 H2]; subst. inversion H2 as [|? ? H3 _]; subst. cbn in H1, H3. intuition congruence. }
    rewrite <- F1, <- F2, <- F3. repeat constructor; cbn; intros X; decompose [or] X; try contradiction; match goal with Q : fst (o _) = fst (o _) |- _ => apply L in Q; congruence end.
  - intros j a' c' Ha' Hc'. destruct (H _ _ _ Hc' Ha') as [A B]. split.
    + intros Q. assert (a' = a). { apply outward_face_saxis in Q. apply outward_face_saxis in Om. destruct Q, Om. congruence. } subst a'.
      destruct (In1 _ _ _ Hc' Ha') as [X|X].
      * (* then c' is not outward, but c is, and both map to +-a: same axis; distinct entries have distinct axes *)
        assert (Ec : fst c' = fst c). { apply L. transitivity (fst a); [apply FA; now left|symmetry; apply FA; now right]. }
        assert (j = i). { rewrite NoDup_nth_error in ND. apply ND; [rewrite map_length; apply nth_error_Some; unfold saxis in *; rewrite Hc'; discriminate|]. rewrite (map_nth_error fst _ _ Hc'), (map_nth_error fst _ _ Hc). now rewrite Ec. }
        subst j. assert (c' = c) by congruence. subst c'. rewrite P in X. exfalso. unfold flip in X. destruct a as [x []]; cbn in X; congruence.
      * replace a with (act o (flip c')); [|rewrite act_flip, X; apply flip_flip]. apply I1.
    + intros Q. destruct (In1 _ _ _ Hc' Ha') as [X|X]; [rewrite <- X; apply I1|].
      (* act o c' = flip a': c' must be outward for this branch unless also ...: if outward then c' = c and a' = a *)
      exfalso. destruct (Z.eq_dec (saxis_face c') n) as [E|E].
      * assert (c' = c). { apply outward_saxis in E. apply outward_face_saxis in E. apply outward_face_saxis in On. destruct E, On. congruence. } subst c'.
        apply Q. assert (flip a' = flip a) by congruence. assert (a' = a) by (rewrite <- (flip_flip a'), H0; apply flip_flip). now subst.
      * assert (act o c' = a') by (apply B; intros Z; apply outward_saxis in Z; contradiction). rewrite H0 in X. unfold flip in X. destruct a' as [x []]; cbn in X; congruence.
Qed.
(** ** a concrete block: interior faces 2 and 5 *)
Definition exO : orient := fun a => match a with I => (J, true) | J => (I, false) | S_Topology.K => (S_Topology.K, true) end.
Definition exLast (a : axis) : Z := match a with I => 9 | J => 5 | S_Topology.K => 5 end%Z.
Definition exDomain (t : string) : option Z := if String.eqb t "domain.7" then Some 7%Z else None.
Definition exThis : list string := ["a"; "domain.1"; "i"; "j"; "-k"; "f"; "9"; "1"; "1"; "9"; "5"; "5"].
Definition exAdj : list string := ["a"; "domain.7"; "-j"; "-i"; "-k"].
Example C131_joint : legal exO /\ forall showZ, showZ 1%Z = "1" -> showZ 5%Z = "5" -> showZ 9%Z = "9" -> jointLines showZ exDomain exLast 2 7 exO exThis exAdj.
Proof.
  split; [intros [] []; cbn; congruence|]. intros showZ S1 S5 S9.
  exists (I, true), (J, true), (S_Topology.K, false), (J, false), (I, false), (S_Topology.K, false), "a", "domain.1", "a", "domain.7", [], [], (fun b => match b with I => 9 | _ => 1 end%Z), (fun b => match b with I => 9 | _ => 5 end%Z).
  split.
  { split; [repeat constructor; cbn; intuition discriminate|]. split; [reflexivity|]. split; [reflexivity|]. intros [|[|[|[|i]]]] c a Hc Ha; try discriminate Hc; cbn in Hc, Ha;
    match type of Hc with Some ?x = _ => assert (c = x) by congruence end; match type of Ha with Some ?x = _ => assert (a = x) by congruence end; subst; (split; [intros O; try reflexivity; cbn in O; discriminate|intros O; try reflexivity; exfalso; apply O; reflexivity]). }
  split.
  { exists I, true. split; [reflexivity|]. split; [intros []; cbn; lia|]. split; [reflexivity|]. split; [reflexivity|]. split; [cbn; lia|]. intros [] H; cbn; [congruence|lia|lia]. }
  split; [reflexivity|]. split; [cbn; rewrite S1, S5, S9; reflexivity|reflexivity].
Qed.
Definition exFs : list face := map (fun n => mkFace n None (if (n =? 2)%Z then "b0" else "adiabaticNoSlipWall") None None) [1; 2; 3; 4; 5; 6]%Z.
Example C131_nonvacuous : forall showZ, showZ 1%Z = "1" -> showZ 5%Z = "5" -> showZ 9%Z = "9" ->
  map nface exFs = [1; 2; 3; 4; 5; 6]%Z /\
  (forall n f, (1 <= n <= 6)%Z -> getf exFs n = Some f -> bcType f = "b0" -> jointLines showZ exDomain exLast n ((fun _ => 7%Z) n) ((fun _ => exO) n) (fst ((fun _ : Z => (exThis, exAdj)) n)) (snd ((fun _ : Z => (exThis, exAdj)) n))) /\
  exists fs', connSection exDomain [exThis; exAdj] exFs = Some fs' /\ getf fs' 2 = Some (mkFace 2 None "b0" (Some 6%Z) (Some "243")).
Proof.
  intros showZ S1 S5 S9. split; [reflexivity|]. split; [|eexists; split; reflexivity].
  intros n f Hn G E. assert (n = 2%Z); [|subst; exact (proj2 C131_joint showZ S1 S5 S9)].
  assert (C : In n six) by now apply six_range. cbn in C. destruct C as [<-|[<-|[<-|[<-|[<-|[<-|[]]]]]]]; try reflexivity; unfold getf in G; cbv in G; assert (bcType f = "adiabaticNoSlipWall") as X by (inversion G; reflexivity); rewrite X in E; discriminate E.
Qed.

(** ** C132: boundary tags *)
Section Tags.
Variable showZ : Z -> string.
Hypothesis showZ_inj : forall a b, showZ a = showZ b -> a = b.
Hypothesis showZ_1 : showZ 1 = "1".
(** the line ICEM writes for (part of) face [n], of range [lo, hi], with label [tag] *)
Definition tagLine (last : axis -> Z) (tag : string) (n : Z) (line : list string) : Prop :=
  exists lo hi rest, onRange last n lo hi /\ line = ([tag; "f"; showZ (lo I); showZ (lo J); showZ (lo S_Topology.K); showZ (hi I); showZ (hi J); showZ (hi S_Topology.K)] ++ rest)%list.
(** a line about an edge, a vertex or the block, or an unlabelled face *)
Definition otherLine (line : list string) : Prop := (exists tag kind rest, line = tag :: kind :: rest /\ kind <> "f") \/ exists rest, line = "DEFAULT_SUBFACE" :: "f" :: rest.
Lemma otherLine_ok fams line fs : otherLine line -> bcLine fams line fs = Some fs.
Proof.
  intros [(tag & kind & rest & -> & H)|(rest & ->)]; cbn [bcLine].
  - destruct (String.eqb_spec kind "f"); [contradiction|reflexivity].
  - reflexivity.
Qed.
Lemma tagLine_ok last fams tag n t line fs : six6 fs -> (1 <= n <= 6)%Z -> tagLine last tag n line -> tag <> "DEFAULT_SUBFACE" -> lookup tag fams = Some t -> In t icemTypes ->
  exists f fs', getf fs n = Some f /\ bcLine fams line fs = Some fs' /\ six6 fs' /\ getf fs' n = Some (mkFace n (Some tag) t (neighbor f) (orientation f)) /\ forall m, (1 <= m <= 6)%Z -> m <> n -> getf fs' m = getf fs m.
Proof.
  intros W Hn (lo & hi & rest & HR & ->) HT HF HI. destruct (six6_get _ _ W Hn) as (f & G & N). exists f.
  pose proof (rangeFace_ok showZ showZ_inj showZ_1 last n lo hi [I; J; S_Topology.K] HR (fun b => match b with I => or_introl eq_refl | J => or_intror (or_introl eq_refl) | S_Topology.K => or_intror (or_intror (or_introl eq_refl)) end)) as ER. cbn [rangeToks map axisName] in ER.
  destruct (onFace_ok n (fun f => set_bcFam f (PStr tag)) fs f _ W Hn G eq_refl N) as (fs1 & E1 & W1 & G1 & O1).
  assert (V : existsb (String.eqb t) validBcTypes = true). { apply existsb_exists. exists t. split; [|apply String.eqb_refl]. cbn in HI |- *. intuition. }
  assert (V2 : existsb (String.eqb t) icemTypes = true) by (apply existsb_exists; exists t; split; [exact HI|apply String.eqb_refl]).
  destruct (onFace_ok n (fun f => set_bcType f (PStr t)) fs1 _ (mkFace n (Some tag) t (neighbor f) (orientation f)) W1 Hn G1) as (fs2 & E2 & W2 & G2 & O2); [cbn [set_bcType]; rewrite V; cbn; now rewrite N|reflexivity|].
  exists fs2. split; [exact G|]. split; [|split; [exact W2|split; [exact G2|intros m Hm Hne; rewrite O2, O1 by assumption; reflexivity]]].
  cbn [app bcLine]. rewrite String.eqb_refl. destruct (String.eqb_spec tag "DEFAULT_SUBFACE"); [contradiction|]. rewrite HF, ER. cbn [bind]. rewrite E1. cbn [bind]. rewrite V2. exact E2.
Qed.
(** what a line says: a label for a face, or nothing *)
Definition says (last : axis -> Z) (fams : list (string * string)) (line : list string) (e : option (Z * string)) : Prop :=
  match e with None => otherLine line | Some (n, tag) => (1 <= n <= 6)%Z /\ tagLine last tag n line /\ tag <> "DEFAULT_SUBFACE" /\ exists t, lookup tag fams = Some t /\ In t icemTypes end.
(** the last label given to face [m] *)
Fixpoint lastTag (m : Z) (es : list (option (Z * string))) (acc : option string) : option string :=
  match es with [] => acc | Some (n, tag) :: r => lastTag m r (if (n =? m)%Z then Some tag else acc) | None :: r => lastTag m r acc end.
Definition tagged (fams : list (string * string)) (f f0 : face) (x : option string) : Prop :=
  match x with None => f = f0 | Some tag => bcFam f = Some tag /\ lookup tag fams = Some (bcType f) /\ nface f = nface f0 /\ neighbor f = neighbor f0 /\ orientation f = orientation f0 end.
Lemma bcSection_ok last fams : forall lines es fs, Forall2 (says last fams) lines es -> six6 fs -> exists fs', bcSection fams lines fs = Some fs' /\ six6 fs' /\
  forall m f0 f1 acc, (1 <= m <= 6)%Z -> getf fs m = Some f1 -> nface f0 = m -> tagged fams f1 f0 acc -> exists f, getf fs' m = Some f /\ tagged fams f f0 (lastTag m es acc).
Proof.
  induction lines as [|l lines IH]; intros es fs HS W; inversion HS as [|? e ? es' He Hes]; subst.
  - exists fs. split; [reflexivity|]. split; [exact W|]. intros m f0 f1 acc Hm G N T. exists f1. now split.
  - destruct e as [[n tag]|].
    + destruct He as (Hn & HT & Hd & t & HF & HI). destruct (tagLine_ok last fams tag n t l fs W Hn HT Hd HF HI) as (f & fs1 & G & E & W1 & G1 & O1). destruct (IH es' fs1 Hes W1) as (fs' & E2 & W2 & H2).
      exists fs'. split; [cbn [bcSection]; rewrite E; exact E2|]. split; [exact W2|]. intros m f0 f1 acc Hm Gm N T. cbn [lastTag]. destruct (Z.eqb_spec n m) as [->|Hne].
      * apply (H2 m f0 _ (Some tag) Hm G1 N). assert (f1 = f) by congruence. subst f1. cbn. split; [reflexivity|]. split; [exact HF|]. split; [now rewrite N|]. unfold tagged in T. destruct acc; [tauto|subst; tauto].
      * apply (H2 m f0 f1 acc Hm); [rewrite O1 by (assumption || lia); exact Gm|exact N|exact T].
    + destruct (IH es' fs Hes W) as (fs' & E2 & W2 & H2). exists fs'. split; [cbn [bcSection]; rewrite (otherLine_ok fams l fs He); exact E2|]. split; [exact W2|]. intros m f0 f1 acc. cbn [lastTag]. apply H2.
Qed.
End Tags.
(** After a block's boundary section every face whose lines all carry the same label belongs to that family and has its type; a face without lines is as it was *)
Theorem C132_tags_partial : forall showZ last fams lines es, (forall a b, showZ a = showZ b -> a = b) -> showZ 1%Z = "1" -> Forall2 (says showZ last fams) lines es ->
  exists fs, bcSection fams lines icemFaces = Some fs /\ forall m, (1 <= m <= 6)%Z -> exists f, getf fs m = Some f /\ nface f = m /\ neighbor f = None /\ orientation f = None /\
    (forall tag, In (Some (m, tag)) es -> (forall tag', In (Some (m, tag')) es -> tag' = tag) -> bcFam f = Some tag /\ lookup tag fams = Some (bcType f)) /\
    ((forall tag, ~ In (Some (m, tag)) es) -> bcFam f = None /\ bcType f = "b0").
Proof.
  intros showZ last fams lines es Hi H1 HS. destruct (bcSection_ok showZ Hi H1 last fams lines es icemFaces HS eq_refl) as (fs & E & W & H). exists fs. split; [exact E|]. intros m Hm.
  set (f0 := mkFace m None "b0" None None). assert (G0 : getf icemFaces m = Some f0). { unfold f0. assert (C : In m six) by now apply six_range. cbn in C. destruct C as [<-|[<-|[<-|[<-|[<-|[<-|[]]]]]]]; reflexivity. }
  destruct (H m f0 f0 None Hm G0 eq_refl eq_refl) as (f & G & T). exists f. split; [exact G|].
  assert (K : forall acc, (lastTag m es acc = acc /\ forall tag, ~ In (Some (m, tag)) es) \/ exists tag, lastTag m es acc = Some tag /\ In (Some (m, tag)) es).
  { clear. induction es as [|[[n tag]|] es IH]; intros acc; cbn [lastTag]; [left; split; [reflexivity|auto]| |].
    - destruct (Z.eqb_spec n m) as [->|Hne].
      + destruct (IH (Some tag)) as [[-> N]|(t & -> & I)]; right; [exists tag|exists t]; split; cbn; auto.
      + destruct (IH acc) as [[-> N]|(t & -> & I)]; [left; split; [reflexivity|]; intros t [X|X]; [congruence|now apply (N t)]|right; exists t; split; [reflexivity|now right]].
    - destruct (IH acc) as [[-> N]|(t & -> & I)]; [left; split; [reflexivity|]; intros t [X|X]; [congruence|now apply (N t)]|right; exists t; split; [reflexivity|now right]]. }
  destruct (K None) as [[X N]|(t & X & I)]; rewrite X in T; cbn [tagged] in T.
  - subst f. split; [reflexivity|]. split; [reflexivity|]. split; [reflexivity|]. split; [intros tag Ht; exfalso; now apply (N tag)|intros _; split; reflexivity].
  - destruct T as (T1 & T2 & T3 & T4 & T5). split; [exact T3|]. split; [exact T4|]. split; [exact T5|]. split; [|intros N; exfalso; now apply (N t)].
    intros tag Ht Hu. assert (t = tag) by now apply Hu. subst t. split; assumption.
Qed.
(** a face whose two halves carry different labels takes the second alone: the first is silently lost *)
Theorem C132_split_face_refuted : forall showZ last fams n tag1 tag2 l1 l2, (forall a b, showZ a = showZ b -> a = b) -> showZ 1%Z = "1" -> says showZ last fams l1 (Some (n, tag1)) -> says showZ last fams l2 (Some (n, tag2)) ->
  exists fs f, bcSection fams [l1; l2] icemFaces = Some fs /\ getf fs n = Some f /\ bcFam f = Some tag2 /\ lookup tag2 fams = Some (bcType f).
Proof.
  intros showZ last fams n tag1 tag2 l1 l2 Hi H1 S1 S2. destruct (bcSection_ok showZ Hi H1 last fams [l1; l2] [Some (n, tag1); Some (n, tag2)] icemFaces) as (fs & E & W & H); [constructor; [exact S1|constructor; [exact S2|constructor]]|reflexivity|].
  pose proof (proj1 S1) as Hn. destruct (six6_get icemFaces n eq_refl Hn) as (f0 & G0 & N0). destruct (H n f0 f0 None Hn G0 N0 eq_refl) as (f & G & T). cbn [lastTag] in T. rewrite Z.eqb_refl in T.
  exists fs, f. split; [exact E|]. split; [exact G|]. cbn in T. tauto.
Qed.
(** seven of the thirteen boundary types the solver offers cannot be given to any face *)
Theorem C132_types_refuted : forall t, In t ["constantMassFluxSubsonicInlet"; "cubicSplineSubsonicInlet"; "stagnationSubsonicInlet"; "supersonicInlet"; "supersonicExit"; "isoTSlipWall"; "isoTNoSlipWall"] ->
  In t external /\ In t boundaryTypes /\ forall fams tag rest fs, tag <> "DEFAULT_SUBFACE" -> lookup tag fams = Some t -> bcLine fams (tag :: "f" :: rest) fs = None.
Proof.
  intros t Ht. split; [cbn in *; intuition|]. split; [cbn in *; intuition|]. intros fams tag rest fs Hd HF. cbn [bcLine]. rewrite String.eqb_refl. destruct (String.eqb_spec tag "DEFAULT_SUBFACE"); [contradiction|]. rewrite HF.
  assert (V : existsb (String.eqb t) icemTypes = false). { cbn in Ht. destruct Ht as [<-|[<-|[<-|[<-|[<-|[<-|[<-|[]]]]]]]]; reflexivity. }
  destruct rest as [|m1 [|m2 [|m3 [|x1 [|x2 [|x3 rest]]]]]]; try reflexivity. destruct (rangeFace _); [|reflexivity]. cbn [bind]. destruct (onFace _ _ fs); [|reflexivity]. cbn [bind]. now rewrite V.
Qed.
(** non-vacuity: a wall label on face 3, an edge line, and an inlet on face 1 *)
Example C132_nonvacuous : forall showZ, showZ 1%Z = "1" -> showZ 5%Z = "5" -> showZ 9%Z = "9" ->
  Forall2 (says showZ exLast [("WALL", "adiabaticNoSlipWall"); ("IN", "constantVelocitySubsonicInlet")]) [["WALL"; "f"; "1"; "1"; "1"; "9"; "1"; "5"]; ["IN"; "e"; "1"]; ["IN"; "f"; "1"; "1"; "1"; "1"; "5"; "5"]]
    [Some (3%Z, "WALL"); None; Some (1%Z, "IN")].
Proof.
  intros showZ S1 S5 S9. constructor; [|constructor; [|constructor; [|constructor]]].
  - split; [lia|]. split; [|split; [discriminate|eexists; split; [reflexivity|cbn; tauto]]].
    exists (fun _ => 1%Z), (fun b => match b with I => 9 | J => 1 | S_Topology.K => 5 end%Z), []. split; [|cbn; rewrite S1, S5, S9; reflexivity].
    exists J, false. split; [reflexivity|]. split; [intros []; cbn; lia|]. split; [reflexivity|]. split; [reflexivity|]. split; [cbn; lia|]. intros [] H; cbn; [lia|congruence|lia].
  - left. exists "IN", "e", ["1"]. split; [reflexivity|discriminate].
  - split; [lia|]. split; [|split; [discriminate|eexists; split; [reflexivity|cbn; tauto]]].
    exists (fun _ => 1%Z), (fun b => match b with I => 1 | J => 5 | S_Topology.K => 5 end%Z), []. split; [|cbn; rewrite S1, S5; reflexivity].
    exists I, false. split; [reflexivity|]. split; [intros []; cbn; lia|]. split; [reflexivity|]. split; [reflexivity|]. split; [cbn; lia|]. intros [] H; cbn; [congruence|lia|lia].
Qed.

(** ** C133: periodic grids and the Multi-Block-Info format *)
Lemma b1_invalid f : set_bcType f (PStr "b1") = None. Proof. reflexivity. Qed.
(** a grid with a periodic face is never converted *)
Theorem C133_periodic_refuted : forall domain self fams bc this adj conn, this <> [] -> icemBlock domain self fams bc (Some (this, adj)) conn = None.
Proof.
  intros domain self fams bc this adj conn H. unfold icemBlock. destruct (bcSection fams bc icemFaces) as [fs|]; [|reflexivity]. cbn [bind].
  assert (E : perSection domain self this adj fs = None); [|now rewrite E]. unfold perSection. destruct this as [|t0 this]; [contradiction|]. set (l := t0 :: this).
  destruct (nth_error adj 1) as [dom|]; [|reflexivity]. cbn [bind]. destruct (domain dom); [|reflexivity]. cbn [bind]. destruct (rangeOf l); [|reflexivity]. cbn [bind]. destruct (rangeFace _) as [n|]; [|reflexivity]. cbn [bind].
  destruct (nth_error l 5) as [k|]; [|reflexivity]. cbn [bind]. destruct (negb _); [reflexivity|]. destruct (dirsOf l) as [cs|]; [|reflexivity]. cbn [bind]. destruct (dirsOf adj) as [adjs|]; [|reflexivity]. cbn [bind].
  match goal with |- bind ?x _ = None => destruct x as [d|]; [|reflexivity] end. cbn [bind]. destruct (onFace n _ fs) as [fs1|]; [|reflexivity]. cbn [bind].
  assert (E : onFace n (fun f => set_bcType f (PStr "b1")) fs1 = None). { unfold onFace. destruct (_ && _)%bool; [|reflexivity]. destruct (nth_error fs1 _) as [f|]; [|reflexivity]. now rewrite b1_invalid. }
  rewrite E. reflexivity.
Qed.
(** Multi-Block-Info coordinates, whose domains ICEM numbers from 1 as in the topology file: the first file asked for, number 0, does not exist *)
Theorem C133_mbi_refuted : forall showN listing, (exists f, In f listing /\ prefix "info.dom" f = true) -> ~ In ("info.dom" ++ showN 0%nat) listing -> mbiOpen showN listing = None.
Proof.
  intros showN listing (f & Hf & Hp) Hn. unfold mbiOpen. destruct (filter (prefix "info.dom") listing) as [|x l] eqn:E; [assert (In f []) as [] by (rewrite <- E; apply filter_In; split; assumption)|].
  cbn [List.length seq map forallb]. destruct (existsb (String.eqb ("info.dom" ++ showN 0%nat)) listing) eqn:X; [|reflexivity]. exfalso. apply Hn. apply existsb_exists in X. destruct X as (y & Hy & Ey). apply String.eqb_eq in Ey. now subst y.
Qed.
Example C133_nonvacuous : let listing := ["info.topo"; "info.dom1"; "info.dom2"] in (exists f, In f listing /\ prefix "info.dom" f = true) /\ ~ In ("info.dom" ++ "0") listing.
Proof. split; [exists "info.dom1"; split; [cbn; tauto|reflexivity]|cbn; intuition discriminate]. Qed.
Print Assumptions C131_connectivity.
Print Assumptions C131_order.
Print Assumptions C131_reciprocal.
Print Assumptions C132_tags_partial.
Print Assumptions C133_periodic_refuted.
