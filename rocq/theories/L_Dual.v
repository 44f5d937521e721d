From Coq Require Import Reals ZArith List Bool Lia Lra FunctionalExtensionality.
From Verif Require Import M_Topology M_Halo M_Grid M_Metrics M_Flux M_FluxKernels M_Thermo S_Sum L_Sum L_Halo1 M_Dual.
Import ListNotations.
Open Scope R_scope.

(** induction over ascending and descending loops *)
Lemma zfold_up {S} (P : Z -> S -> Prop) (f : S -> Z -> S) lo hi s : (lo <= hi)%Z -> P lo s ->
  (forall k s, (lo <= k < hi)%Z -> P k s -> P (k + 1)%Z (f s k)) -> P hi (fold_left f (zrange lo hi) s).
Proof.
  intros H H0 HS. assert (G: forall n, (0 <= n)%Z -> (lo + n <= hi)%Z -> P (lo + n)%Z (fold_left f (zrange lo (lo + n)) s)).
  { intros n Hn. pattern n. apply natlike_ind; auto.
    - intros _. rewrite Z.add_0_r, zrange_empty by lia. exact H0.
    - intros m Hm IH Hle. replace (lo + Z.succ m)%Z with (lo + m + 1)%Z by lia. rewrite zrange_snoc' by lia. rewrite fold_left_app. cbn [fold_left]. apply HS; [lia|]. apply IH. lia. }
  specialize (G (hi - lo)%Z). replace (lo + (hi - lo))%Z with hi in G by lia. apply G; lia.
Qed.
Lemma zfold_down {S} (P : Z -> S -> Prop) (f : S -> Z -> S) lo hi s : (lo <= hi)%Z -> P hi s ->
  (forall k s, (lo <= k < hi)%Z -> P (k + 1)%Z s -> P k (f s k)) -> P lo (fold_left f (rev (zrange lo hi)) s).
Proof.
  intros H H0 HS. assert (G: forall n, (0 <= n)%Z -> (lo + n <= hi)%Z -> forall s, P (lo + n)%Z s -> P lo (fold_left f (rev (zrange lo (lo + n))) s)).
  { intros n Hn. pattern n. apply natlike_ind; auto.
    - intros _ s0 Hs. rewrite Z.add_0_r, zrange_empty in * by lia. exact Hs.
    - intros m Hm IH Hle s0 Hs. replace (lo + Z.succ m)%Z with (lo + m + 1)%Z in * by lia. rewrite zrange_snoc' by lia. rewrite rev_app_distr. cbn [rev app fold_left].
      apply IH; [lia|]. apply HS; [lia|]. exact Hs. }
  specialize (G (hi - lo)%Z). replace (lo + (hi - lo))%Z with hi in G by lia. apply G; auto; lia.
Qed.
Ltac zb := repeat match goal with
  | |- context [(?a =? ?b)%Z] => destruct (Z.eqb_spec a b); subst; cbn [andb]
  | |- context [(?a <? ?b)%Z] => destruct (Z.ltb_spec a b); cbn [andb]
  | |- context [(?a <=? ?b)%Z] => destruct (Z.leb_spec a b); cbn [andb]
  end.
Definition inR (lo hi i : Z) : bool := ((lo <=? i) && (i <? hi))%Z%bool.
Lemma inR_true lo hi i : inR lo hi i = true <-> (lo <= i < hi)%Z. Proof. unfold inR. rewrite andb_true_iff, Z.leb_le, Z.ltb_lt. reflexivity. Qed.
Lemma inR_false lo hi i : inR lo hi i = false <-> ~ (lo <= i < hi)%Z. Proof. rewrite <- inR_true. destruct (inR lo hi i); intuition congruence. Qed.
Lemma inR_S lo k i : inR lo (k + 1) i = (inR lo k i || ((lo <=? i) && (i =? k))%Z)%bool.
Proof. unfold inR. destruct (Z.leb_spec lo i), (Z.ltb_spec i (k+1)), (Z.ltb_spec i k), (Z.eqb_spec i k); cbn; auto; lia. Qed.

Lemma swapRows_spec ne l k M : (0 <= ne)%Z -> forall i j, swapRows ne l k M i j =
  if inR 0 ne j then (if (i =? k)%Z then M l j else if (i =? l)%Z then M k j else M i j) else M i j.
Proof.
  intros Hn. unfold swapRows. apply (zfold_up (fun h S => forall i j, S i j = if inR 0 h j then (if (i =? k)%Z then M l j else if (i =? l)%Z then M k j else M i j) else M i j)); auto.
  - intros i j. unfold inR. zb; auto; lia.
  - intros p S Hp IH i j. cbv zeta. unfold setm. rewrite !IH, inR_S. destruct (inR 0 p p) eqn:E; [apply inR_true in E; lia|].
    destruct (Z.eqb_spec j p); subst; cbn [andb]; rewrite ?E.
    + replace (0 <=? p)%Z with true by (symmetry; apply Z.leb_le; lia). cbn [orb andb]. rewrite ?Z.eqb_refl, !andb_true_r.
      destruct (Z.eqb_spec i k); [auto|]; destruct (Z.eqb_spec i l); auto.
    + rewrite !andb_false_r, orb_false_r. auto.
Qed.
(** one row of the elimination *)
Lemma elimRow_spec ne l p M : (0 <= l < ne)%Z -> (l < p < ne)%Z -> let temp := M p l / M l l in
  forall i j, fold_left (fun M q => setm M p q (M p q - temp * M l q)) (zrange (l + 1) ne) (setm M p l temp) i j =
  if (i =? p)%Z then (if (j =? l)%Z then temp else if inR (l + 1) ne j then M p j - temp * M l j else M p j) else M i j.
Proof.
  intros Hl Hp temp.
  apply (zfold_up (fun h S => forall i j, S i j = if (i =? p)%Z then (if (j =? l)%Z then temp else if inR (l + 1) h j then M p j - temp * M l j else M p j) else M i j)); [lia| |].
  - intros i j. unfold setm, inR. zb; auto; lia.
  - intros q S Hq IH i j. unfold setm. rewrite !IH. rewrite Z.eqb_refl. destruct (Z.eqb_spec l p); [lia|]. destruct (Z.eqb_spec q l); [lia|].
    destruct (inR (l+1) q q) eqn:E; [apply inR_true in E; lia|]. rewrite inR_S. destruct (Z.eqb_spec i p); subst; cbn [andb]; auto.
    destruct (Z.eqb_spec j q); subst.
    + destruct (Z.eqb_spec q l); [lia|]. rewrite E. replace (l + 1 <=? q)%Z with true by (symmetry; apply Z.leb_le; lia). reflexivity.
    + rewrite andb_false_r, orb_false_r. reflexivity.
Qed.
Lemma eliminate_spec ne l M : (0 <= l < ne)%Z -> forall i j, eliminate ne l M i j =
  if inR (l + 1) ne i then (if (j =? l)%Z then M i l / M l l else if inR (l + 1) ne j then M i j - M i l / M l l * M l j else M i j) else M i j.
Proof.
  intros Hl. unfold eliminate.
  apply (zfold_up (fun h S => forall i j, S i j = if inR (l + 1) h i then (if (j =? l)%Z then M i l / M l l else if inR (l + 1) ne j then M i j - M i l / M l l * M l j else M i j) else M i j)); [lia| |].
  - intros i j. unfold inR at 1. zb; auto; lia.
  - intros p S Hp IH i j. cbv zeta. rewrite (elimRow_spec ne l p S Hl) by lia.
    assert (El: inR (l + 1) p l = false) by (apply inR_false; lia). assert (Ep: inR (l + 1) p p = false) by (apply inR_false; lia).
    rewrite inR_S. destruct (Z.eqb_spec i p); subst.
    + rewrite Ep. replace (l + 1 <=? p)%Z with true by (symmetry; apply Z.leb_le; lia). cbn [orb andb]. rewrite !IH, El, Ep. reflexivity.
    + rewrite andb_false_r, orb_false_r. apply IH.
Qed.
(** pivot search: the found row, and non-zero as soon as the column has a non-zero entry *)
Lemma pivot_spec ne l M : (0 <= l < ne)%Z -> let s := pivotSearch ne l M in
  (forall m, (l <= m < ne)%Z -> Rabs (M m l) <= Rabs (snd s)) /\ (snd s = 0 \/ ((l <= fst s < ne)%Z /\ snd s = M (fst s) l)).
Proof.
  intros Hl. cbv zeta. unfold pivotSearch.
  apply (zfold_up (fun h s => (forall m, (l <= m < h)%Z -> Rabs (M m l) <= Rabs (snd s)) /\ (snd s = 0 \/ ((l <= fst s < h)%Z /\ snd s = M (fst s) l)))); [lia| |].
  - cbn. split; [intros; lia|auto].
  - intros k s Hk (H1 & H2). destruct (Rlt_dec (Rabs (snd s)) (Rabs (M k l))); cbn [fst snd].
    + split; [|right; split; [lia|reflexivity]]. intros m Hm. destruct (Z.eq_dec m k) as [->|]; [lra|]. specialize (H1 m ltac:(lia)). lra.
    + split; [|destruct H2 as [H2|(H2 & H3)]; [auto|right; split; [lia|auto]]]. intros m Hm. destruct (Z.eq_dec m k) as [->|]; [lra|]. apply H1. lia.
Qed.

(** forward and backward substitution *)
Lemma fwdRow_spec G z l : (0 <= l)%Z -> forall i, fold_left (fun z q => setv z l (z l - G l q * z q)) (zrange 0 l) z i =
  if (i =? l)%Z then z l - sumZ 0 l (fun q => G l q * z q) else z i.
Proof.
  intros Hl. apply (zfold_up (fun h S => forall i, S i = if (i =? l)%Z then z l - sumZ 0 h (fun q => G l q * z q) else z i)); auto.
  - intros i. rewrite sumZ_empty by lia. zb; auto; lra.
  - intros k S Hk IH i. unfold setv. rewrite !IH, Z.eqb_refl. rewrite sumZ_snoc by lia. destruct (Z.eqb_spec k l); [lia|]. destruct (Z.eqb_spec i l); auto. lra.
Qed.
Lemma forward_spec ne G z : (0 <= ne)%Z -> forall i, (0 <= i < ne)%Z -> forward ne G z i = z i - sumZ 0 i (fun q => G i q * forward ne G z q).
Proof.
  intros Hn. unfold forward. set (f := fun z l => fold_left (fun z q => setv z l (z l - G l q * z q)) (zrange 0 l) z).
  apply (zfold_up (fun h S => (forall i, (0 <= i < h)%Z -> S i = z i - sumZ 0 i (fun q => G i q * S q)) /\ (forall i, ~ (0 <= i < h)%Z -> S i = z i))); auto.
  - split; intros; [lia|auto].
  - intros k S Hk (IH1 & IH2). unfold f. split; intros i Hi.
    + rewrite fwdRow_spec by lia. destruct (Z.eqb_spec i k) as [->|].
      * rewrite IH2 by lia. f_equal. apply sumZ_ext. intros q Hq. rewrite fwdRow_spec by lia. destruct (Z.eqb_spec q k); [lia|reflexivity].
      * rewrite IH1 at 1 by lia. f_equal. apply sumZ_ext. intros q Hq. rewrite fwdRow_spec by lia. destruct (Z.eqb_spec q k); [lia|reflexivity].
    + rewrite fwdRow_spec by lia. destruct (Z.eqb_spec i k); [lia|]. apply IH2. lia.
Qed.
Lemma sumZ_cons lo hi f : (lo < hi)%Z -> sumZ lo hi f = f lo + sumZ (lo + 1) hi f.
Proof. intros H. unfold sumZ. rewrite (L_Halo1.zrange_cons lo hi) by lia. reflexivity. Qed.
Lemma bwdRow_spec ne G x l : (l < ne)%Z -> forall i, fold_left (fun x q => setv x l (x l - G l q * x q)) (rev (zrange (l + 1) ne)) x i =
  if (i =? l)%Z then x l - sumZ (l + 1) ne (fun q => G l q * x q) else x i.
Proof.
  intros Hl. apply (zfold_down (fun h S => forall i, S i = if (i =? l)%Z then x l - sumZ h ne (fun q => G l q * x q) else x i)); [lia| |].
  - intros i. rewrite sumZ_empty by lia. zb; auto; lra.
  - intros k S Hk IH i. unfold setv. rewrite !IH, Z.eqb_refl. destruct (Z.eqb_spec k l); [lia|]. destruct (Z.eqb_spec i l); auto. rewrite (sumZ_cons k) by lia. lra.
Qed.
Lemma backward_spec ne G z x : (0 <= ne)%Z -> (forall i, (0 <= i < ne)%Z -> G i i <> 0) ->
  forall i, (0 <= i < ne)%Z -> sumZ i ne (fun j => G i j * backward ne G z x j) = z i.
Proof.
  intros Hn HD. unfold backward. set (f := fun (x : vec) l => _).
  apply (zfold_down (fun h S => forall i, (h <= i < ne)%Z -> sumZ i ne (fun j => G i j * S j) = z i)); auto.
  - intros; lia.
  - intros k S Hk IH i Hi. assert (F: forall j, f S k j = if (j =? k)%Z then (z k - sumZ (k + 1) ne (fun q => G k q * S q)) / G k k else S j).
    { intros j. unfold f. cbv zeta. unfold setv at 1. destruct (Z.eqb_spec j k) as [->|N].
      - rewrite bwdRow_spec by lia. rewrite Z.eqb_refl. f_equal. f_equal; [unfold setv; now rewrite Z.eqb_refl|]. apply sumZ_ext. intros q Hq. unfold setv. destruct (Z.eqb_spec q k); [lia|reflexivity].
      - rewrite bwdRow_spec by lia. destruct (Z.eqb_spec j k); [contradiction|]. unfold setv. destruct (Z.eqb_spec j k); [contradiction|reflexivity]. }
    destruct (Z.eq_dec i k) as [->|].
    + rewrite sumZ_cons by lia. rewrite F, Z.eqb_refl. rewrite (sumZ_ext (k+1) ne (fun j => G k j * f S k j) (fun q => G k q * S q)); [field; apply HD; lia|].
      intros q Hq. rewrite F. destruct (Z.eqb_spec q k); [lia|reflexivity].
    + rewrite <- (IH i) by lia. apply sumZ_ext. intros q Hq. rewrite F. destruct (Z.eqb_spec q k); [lia|reflexivity].
Qed.

(** * the factorisation *)
Definition Lf (M : mat) (i k : Z) : R := if (i <? k)%Z then 0 else if (i =? k)%Z then 1 else M i k.
Definition Uf (M : mat) (k j : Z) : R := if (j <? k)%Z then 0 else M k j.
Definition rest (M : mat) (l i j : Z) : R := if ((l <=? i) && (l <=? j))%Z%bool then M i j else 0.
Definition permOn (ne : Z) (s : Z -> Z) : Prop := exists t, forall i, (0 <= i < ne)%Z -> (0 <= s i < ne)%Z /\ (0 <= t i < ne)%Z /\ t (s i) = i /\ s (t i) = i.
Definition luInv (ne : Z) (A : mat) (l : Z) (s : mat * (Z -> Z)) : Prop :=
  permOn ne (snd s) /\ (forall k, (0 <= k < l)%Z -> fst s k k <> 0) /\
  forall i j, (0 <= i < ne)%Z -> (0 <= j < ne)%Z -> A (snd s i) j = sumZ 0 l (fun k => Lf (fst s) i k * Uf (fst s) k j) + rest (fst s) l i j.
Lemma swapPerm_on ne l k s : (0 <= l < ne)%Z -> (0 <= k < ne)%Z -> permOn ne s -> permOn ne (swapPerm l k s).
Proof.
  intros Hl Hk (t & H). exists (fun i => if (t i =? l)%Z then k else if (t i =? k)%Z then l else t i).
  assert (SL: s l <> s k \/ l = k). { destruct (Z.eq_dec l k); auto. left. intros E. destruct (H l Hl) as (_ & _ & T1 & _), (H k Hk) as (_ & _ & T2 & _). rewrite E in T1. lia. }
  intros i Hi. destruct (H i Hi) as (S1 & S2 & S3 & S4), (H l Hl) as (L1 & L2 & L3 & L4), (H k Hk) as (K1 & K2 & K3 & K4). unfold swapPerm. cbv zeta.
  split; [|split; [|split]].
  - zb; auto.
  - zb; auto.
  - destruct (Z.eqb_spec i k) as [->|]; [rewrite L3, Z.eqb_refl; reflexivity|]. destruct (Z.eqb_spec i l) as [->|].
    + rewrite K3. destruct (Z.eqb_spec k l); [lia|]. rewrite Z.eqb_refl. reflexivity.
    + rewrite S3. destruct (Z.eqb_spec i l); [contradiction|]. destruct (Z.eqb_spec i k); [contradiction|reflexivity].
  - destruct (Z.eqb_spec (t i) l) as [E|]; [rewrite Z.eqb_refl; congruence|]. destruct (Z.eqb_spec (t i) k) as [E|].
    + destruct (Z.eqb_spec l k); [congruence|]. rewrite Z.eqb_refl. congruence.
    + destruct (Z.eqb_spec (t i) k); [contradiction|]. destruct (Z.eqb_spec (t i) l); [contradiction|]. exact S4.
Qed.
(** exchanging two rows at or below the current one keeps the invariant (the multipliers of the earlier columns move along) *)
Lemma swap_inv ne A l k M s : (0 <= l < ne)%Z -> (l <= k < ne)%Z -> luInv ne A l (M, s) -> luInv ne A l (swapRows ne l k M, swapPerm l k s).
Proof.
  intros Hl Hk (H1 & H2 & H3). cbn [fst snd] in *. split; [|split]; cbn [fst snd].
  - apply swapPerm_on; auto; lia.
  - intros m Hm. rewrite swapRows_spec by lia. destruct (inR 0 ne m) eqn:E; [|apply inR_false in E; lia].
    destruct (Z.eqb_spec m k); [lia|]. destruct (Z.eqb_spec m l); [lia|]. now apply H2.
  - intros i j Hi Hj. set (i' := if (i =? k)%Z then l else if (i =? l)%Z then k else i).
    assert (Hi': (0 <= i' < ne)%Z) by (unfold i'; zb; lia).
    assert (EP: swapPerm l k s i = s i'). { unfold swapPerm, i'. cbv zeta. zb; auto. }
    rewrite EP, (H3 i' j Hi' Hj).
    assert (RM: forall j, (0 <= j < ne)%Z -> swapRows ne l k M i j = M i' j).
    { intros j0 Hj0. rewrite swapRows_spec by lia. destruct (inR 0 ne j0) eqn:E; [|apply inR_false in E; lia]. unfold i'. zb; auto. }
    f_equal.
    + apply sumZ_ext. intros m Hm. f_equal.
      * unfold Lf. unfold i' in *. destruct (Z.eqb_spec i k); subst; [|destruct (Z.eqb_spec i l); subst].
        -- destruct (Z.ltb_spec l m); [lia|]. destruct (Z.eqb_spec l m); [lia|]. destruct (Z.ltb_spec k m); [lia|]. destruct (Z.eqb_spec k m); [lia|]. symmetry. apply RM. lia.
        -- destruct (Z.ltb_spec l m); [lia|]. destruct (Z.eqb_spec l m); [lia|]. destruct (Z.ltb_spec k m); [lia|]. destruct (Z.eqb_spec k m); [lia|]. symmetry. apply RM. lia.
        -- destruct (Z.ltb_spec i m); auto. destruct (Z.eqb_spec i m); auto. symmetry. apply RM. lia.
      * unfold Uf. destruct (Z.ltb_spec j m); auto. rewrite swapRows_spec by lia. destruct (inR 0 ne j) eqn:E; [|reflexivity].
        destruct (Z.eqb_spec m k); [lia|]. destruct (Z.eqb_spec m l); [lia|]. reflexivity.
    + unfold rest. rewrite RM by auto. unfold i'. destruct (Z.eqb_spec i k); subst; [|destruct (Z.eqb_spec i l); subst]; zb; auto; lia.
Qed.
Lemma elim_inv ne A l M s : (0 <= l < ne)%Z -> M l l <> 0 -> luInv ne A l (M, s) -> luInv ne A (l + 1) (eliminate ne l M, s).
Proof.
  intros Hl HP (H1 & H2 & H3). cbn [fst snd] in *. assert (ES := eliminate_spec ne l M Hl). split; [|split]; cbn [fst snd]; auto.
  - intros k Hk. rewrite ES. destruct (inR (l + 1) ne k) eqn:E; [apply inR_true in E; lia|]. destruct (Z.eq_dec k l) as [->|]; auto. apply H2. lia.
  - intros i j Hi Hj. rewrite (H3 i j Hi Hj), sumZ_snoc by lia.
    assert (SU: sumZ 0 l (fun k => Lf (eliminate ne l M) i k * Uf (eliminate ne l M) k j) = sumZ 0 l (fun k => Lf M i k * Uf M k j)).
    { apply sumZ_ext. intros k Hk. f_equal.
      - unfold Lf. destruct (Z.ltb_spec i k); auto. destruct (Z.eqb_spec i k); auto. rewrite ES. destruct (inR (l + 1) ne i) eqn:E; auto.
        destruct (Z.eqb_spec k l); [lia|]. destruct (inR (l + 1) ne k) eqn:E2; [apply inR_true in E2; lia|reflexivity].
      - unfold Uf. destruct (Z.ltb_spec j k); auto. rewrite ES. destruct (inR (l + 1) ne k) eqn:E2; [apply inR_true in E2; lia|reflexivity]. }
    rewrite SU. clear SU. rewrite Rplus_assoc. f_equal. unfold rest, Lf, Uf. rewrite !ES.
    assert (El: inR (l + 1) ne l = false) by (apply inR_false; lia). rewrite El, Z.eqb_refl.
    destruct (Z.ltb_spec i l); destruct (Z.leb_spec l i); try lia; destruct (Z.leb_spec (l+1) i); try lia; cbn [andb].
    + ring.
    + destruct (inR (l + 1) ne i) eqn:E1; [|apply inR_false in E1; lia]. destruct (Z.eqb_spec i l); [lia|].
      destruct (Z.leb_spec l j), (Z.ltb_spec j l); try lia.
      * destruct (Z.leb_spec (l + 1) j).
        -- destruct (Z.eqb_spec j l); [lia|]. destruct (inR (l + 1) ne j) eqn:E2; [|apply inR_false in E2; lia]. ring.
        -- assert (j = l) by lia. subst j. field. auto.
      * destruct (Z.leb_spec (l + 1) j); [lia|]. ring.
    + assert (i = l) by lia. subst i. rewrite Z.eqb_refl. destruct (Z.leb_spec l j), (Z.ltb_spec j l); try lia; ring.
Qed.
(** nonsingular: only the zero vector is mapped to zero *)
Definition trivialKernel (ne : Z) (A : mat) : Prop :=
  forall x, (forall i, (0 <= i < ne)%Z -> sumZ 0 ne (fun j => A i j * x j) = 0) -> forall j, (0 <= j < ne)%Z -> x j = 0.
Lemma sumZ_split lo mid hi f : (lo <= mid <= hi)%Z -> sumZ lo hi f = sumZ lo mid f + sumZ mid hi f.
Proof.
  intros H. assert (G: forall n, (0 <= n)%Z -> (mid + n <= hi)%Z -> sumZ lo (mid + n) f = sumZ lo mid f + sumZ mid (mid + n) f).
  { intros n Hn. pattern n. apply natlike_ind; auto.
    - intros _. rewrite Z.add_0_r, (sumZ_empty mid mid) by lia. lra.
    - intros m Hm IH Hle. replace (mid + Z.succ m)%Z with (mid + m + 1)%Z by lia. rewrite !sumZ_snoc by lia. rewrite IH by lia. lra. }
  specialize (G (hi - mid)%Z). replace (mid + (hi - mid))%Z with hi in G by lia. apply G; lia.
Qed.
Lemma pivot_exists ne A l M s : (0 <= l < ne)%Z -> trivialKernel ne A -> luInv ne A l (M, s) -> exists m, (l <= m < ne)%Z /\ M m l <> 0.
Proof.
  intros Hl HA (H1 & H2 & H3). cbn [fst snd] in *.
  assert (DEC: (exists m, (l <= m < ne)%Z /\ M m l <> 0) \/ forall m, (l <= m < ne)%Z -> M m l = 0).
  { destruct (pivot_spec ne l M Hl) as (P1 & P2). destruct P2 as [P2|(P2 & P3)].
    - right. intros m Hm. specialize (P1 m Hm). rewrite P2, Rabs_R0 in P1. pose proof (Rabs_pos (M m l)). destruct (Req_dec (M m l) 0); auto. pose proof (Rabs_pos_lt _ H0). lra.
    - destruct (Req_dec (M (fst (pivotSearch ne l M)) l) 0) as [E|E]; [|left; eauto].
      right. intros m Hm. specialize (P1 m Hm). rewrite P3, E, Rabs_R0 in P1. pose proof (Rabs_pos (M m l)). destruct (Req_dec (M m l) 0); auto. pose proof (Rabs_pos_lt _ H0). lra. }
  destruct DEC as [D|D]; auto. exfalso.
  set (y := backward l M (fun k => - M k l) (fun _ => 0)).
  assert (HY: forall i, (0 <= i < l)%Z -> sumZ i l (fun j => M i j * y j) = - M i l) by (intros; apply backward_spec; auto; lia).
  set (x := fun j => if (j <? l)%Z then y j else if (j =? l)%Z then 1 else 0).
  assert (UX: forall k, (0 <= k < l)%Z -> sumZ 0 ne (fun j => Uf M k j * x j) = 0).
  { intros k Hk. rewrite (sumZ_split 0 k ne), (sumZ_split k l ne), (sumZ_cons l ne) by lia.
    rewrite (sumZ_zero 0 k), (sumZ_zero (l + 1) ne).
    - rewrite (sumZ_ext k l _ (fun j => M k j * y j)).
      + rewrite HY by auto. unfold Uf, x. destruct (Z.ltb_spec l k); [lia|]. destruct (Z.ltb_spec l l); [lia|]. rewrite Z.eqb_refl. ring.
      + intros j Hj. unfold Uf, x. destruct (Z.ltb_spec j k); [lia|]. destruct (Z.ltb_spec j l); [reflexivity|lia].
    - intros j Hj. unfold x. destruct (Z.ltb_spec j l); [lia|]. destruct (Z.eqb_spec j l); [lia|]. ring.
    - intros j Hj. unfold Uf. destruct (Z.ltb_spec j k); [ring|lia]. }
  assert (AX: forall i, (0 <= i < ne)%Z -> sumZ 0 ne (fun j => A (s i) j * x j) = 0).
  { intros i Hi. rewrite (sumZ_ext 0 ne _ (fun j => sumZ 0 l (fun k => Lf M i k * (Uf M k j * x j)) + rest M l i j * x j)).
    - rewrite sumZ_plus, sumZ_swap. rewrite (sumZ_zero 0 l); [rewrite (sumZ_zero 0 ne); [ring|]|].
      + intros j Hj. unfold rest, x. destruct (Z.leb_spec l i), (Z.leb_spec l j); cbn [andb]; try ring. destruct (Z.ltb_spec j l); [lia|].
        destruct (Z.eqb_spec j l); [subst|ring]. rewrite D by lia. ring.
      + intros k Hk. rewrite sumZ_scale, UX by auto. ring.
    - intros j Hj. rewrite H3 by auto. rewrite Rmult_plus_distr_r. f_equal. rewrite Rmult_comm, <- sumZ_scale. apply sumZ_ext. intros; ring. }
  assert (x l = 0).
  { apply HA; [|lia]. intros i Hi. destruct H1 as (t & Ht). destruct (Ht i Hi) as (_ & T1 & _ & T2). rewrite <- T2. apply AX. auto. }
  unfold x in H. destruct (Z.ltb_spec l l); [lia|]. rewrite Z.eqb_refl in H. lra.
Qed.
Lemma lu_inv ne A : (0 <= ne)%Z -> trivialKernel ne A -> luInv ne A ne (lu ne A).
Proof.
  intros Hn HA. unfold lu. apply (zfold_up (luInv ne A)); auto.
  - split; [exists (fun i => i); intros; cbn; auto|]. split; [intros; cbn in *; lia|]. intros i j Hi Hj. cbn [fst snd]. rewrite sumZ_empty by lia. unfold rest.
    destruct (Z.leb_spec 0 i), (Z.leb_spec 0 j); try lia. cbn. lra.
  - intros l [M s] Hl I. unfold luStep. cbn [fst snd]. destruct (pivot_exists ne A l M s Hl HA I) as (m & Hm & Em).
    destruct (pivot_spec ne l M Hl) as (P1 & P2). set (k := fst (pivotSearch ne l M)) in *.
    assert (K: (l <= k < ne)%Z /\ M k l <> 0).
    { specialize (P1 m Hm). pose proof (Rabs_pos_lt _ Em). destruct P2 as [P2|(P2 & P3)].
      - rewrite P2, Rabs_R0 in P1. lra.
      - split; auto. intros E. rewrite P3, E, Rabs_R0 in P1. lra. }
    apply elim_inv; auto.
    + rewrite swapRows_spec by lia. destruct (inR 0 ne l) eqn:E; [|apply inR_false in E; lia]. destruct K as (_ & K). destruct (Z.eqb_spec l k) as [e|]; [|rewrite Z.eqb_refl; exact K].
      intros Z0. apply K. rewrite <- Z0. f_equal. exact (eq_sym e).
    + apply swap_inv; auto; lia.
Qed.
Lemma luSolve_correct ne A b : (0 <= ne)%Z -> trivialKernel ne A -> forall i, (0 <= i < ne)%Z -> sumZ 0 ne (fun j => A i j * luSolve ne A b j) = b i.
Proof.
  intros Hn HA. pose proof (lu_inv ne A Hn HA) as I. unfold luSolve. destruct (lu ne A) as [G s]. destruct I as (H1 & H2 & H3). cbn [fst snd] in *.
  set (t0 := fun l => b (s l)). set (z := forward ne G t0). set (x := backward ne G z t0).
  assert (HX: forall i, (0 <= i < ne)%Z -> sumZ i ne (fun j => G i j * x j) = z i) by (apply backward_spec; auto).
  assert (HZ: forall i, (0 <= i < ne)%Z -> z i = t0 i - sumZ 0 i (fun q => G i q * z q)) by (apply forward_spec; auto).
  assert (UX: forall k, (0 <= k < ne)%Z -> sumZ 0 ne (fun j => Uf G k j * x j) = z k).
  { intros k Hk. rewrite (sumZ_split 0 k ne) by lia. rewrite (sumZ_zero 0 k). 2: { intros j Hj. unfold Uf. destruct (Z.ltb_spec j k); [ring|lia]. }
    rewrite Rplus_0_l, <- (HX k Hk). apply sumZ_ext. intros j Hj. unfold Uf. destruct (Z.ltb_spec j k); [lia|reflexivity]. }
  assert (AX: forall i, (0 <= i < ne)%Z -> sumZ 0 ne (fun j => A (s i) j * x j) = b (s i)).
  { intros i Hi. rewrite (sumZ_ext 0 ne _ (fun j => sumZ 0 ne (fun k => Lf G i k * (Uf G k j * x j)))).
    - rewrite sumZ_swap. rewrite (sumZ_ext 0 ne _ (fun k => Lf G i k * z k)) by (intros k Hk; rewrite sumZ_scale, UX by auto; reflexivity).
      rewrite (sumZ_split 0 i ne), (sumZ_cons i ne) by lia. rewrite (sumZ_zero (i + 1) ne).
      + unfold Lf at 2. destruct (Z.ltb_spec i i); [lia|]. rewrite Z.eqb_refl. rewrite (HZ i Hi). rewrite (sumZ_ext 0 i _ (fun q => G i q * z q)); [unfold t0; ring|].
        intros q Hq. unfold Lf. destruct (Z.ltb_spec i q); [lia|]. destruct (Z.eqb_spec i q); [lia|reflexivity].
      + intros k Hk. unfold Lf. destruct (Z.ltb_spec i k); [ring|lia].
    - intros j Hj. rewrite H3 by auto. unfold rest. destruct (Z.leb_spec ne i); [lia|]. cbn [andb]. rewrite Rplus_0_r, Rmult_comm, <- sumZ_scale. apply sumZ_ext. intros; ring. }
  intros i Hi. destruct H1 as (t & Ht). destruct (Ht i Hi) as (_ & T1 & _ & T2). specialize (AX (t i) T1). rewrite T2 in AX. exact AX.
Qed.
