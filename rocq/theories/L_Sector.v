(** Lemmas for C78. *)
From Coq Require Import ZArith String Ascii List Bool Lia Reals.
From Verif Require Import M_Topology S_Topology L_Topology M_Grid M_Cut M_Sector S_Sector.
Import ListNotations.
Open Scope Z_scope.

Lemma allSome_map {A B} (h : A -> option B) (d : A -> B) l :
  (forall x, In x l -> h x = Some (d x)) -> allSome (map h l) = Some (map d l).
Proof.
  induction l as [|x l IH]; intros H; cbn; [reflexivity|].
  rewrite (H x) by now left. rewrite IH; [reflexivity|]. intros y Hy. apply H. now right.
Qed.

Lemma allSome_ex {A B} (h : A -> option B) l :
  (forall x, In x l -> exists y, h x = Some y) ->
  exists r, allSome (map h l) = Some r /\ length r = length l /\
    forall i x, nth_error l i = Some x -> exists y, nth_error r i = Some y /\ h x = Some y.
Proof.
  induction l as [|x l IH]; intros H; cbn.
  - exists []. repeat split. intros [] x E; discriminate.
  - destruct (H x (or_introl eq_refl)) as [y Ey]. rewrite Ey.
    destruct IH as (r & E & L & F); [intros z Hz; apply H; now right|]. rewrite E.
    exists (y :: r). split; [reflexivity|]. split; [cbn; lia|].
    intros [|i] z Ez; cbn in *; [injection Ez as <-; eauto|]. now apply F.
Qed.

(** The list of all (sector, block) pairs, sector by sector. *)
Definition pairsOf {A} (l : list A) (ss : list Z) : list (Z * A) := flat_map (fun s => map (pair s) l) ss.

Lemma flat_pairs {A B} (h : Z -> A -> B) l ss :
  flat_map (fun s => map (h s) l) ss = map (fun p => h (fst p) (snd p)) (pairsOf l ss).
Proof.
  unfold pairsOf. induction ss as [|s ss IH]; cbn; [reflexivity|]. rewrite map_app, map_map, IH. reflexivity.
Qed.

Lemma pairs_len {A} (l : list A) ss : length (pairsOf l ss) = (length ss * length l)%nat.
Proof. unfold pairsOf. induction ss as [|s ss IH]; cbn; [reflexivity|]. rewrite app_length, map_length, IH. lia. Qed.

Lemma pairs_nth {A} (l : list A) k : forall a s j x, (s < k)%nat -> nth_error l j = Some x ->
  nth_error (pairsOf l (map Z.of_nat (seq a k))) (s * length l + j) = Some (Z.of_nat (a + s), x).
Proof.
  unfold pairsOf. induction k as [|k IH]; intros a s j x Hs Hj; [lia|]. cbn [seq map flat_map].
  assert (Lj : (j < length l)%nat) by (apply nth_error_Some; congruence).
  destruct s as [|s].
  - rewrite nth_error_app1 by (rewrite map_length; lia). cbn [Nat.mul Nat.add]. rewrite nth_error_map, Hj. cbn. do 3 f_equal. lia.
  - rewrite nth_error_app2 by (rewrite map_length; lia). rewrite map_length.
    replace (S s * length l + j - length l)%nat with (s * length l + j)%nat by lia.
    rewrite (IH (S a) s j x) by (auto; lia). do 3 f_equal. lia.
Qed.

Lemma memZ_spec n l : memZ n l = true <-> In n l.
Proof. unfold memZ. rewrite existsb_exists. split; [intros (x & I & E); apply Z.eqb_eq in E; now subst|intros I; exists n; split; [auto|apply Z.eqb_refl]]. Qed.

Lemma sideOf_spec t mb n : In n (sideOf t mb) <-> exists b f, In b mb /\ In f (faces b) /\ bcType f = t /\ nblki b = n.
Proof.
  unfold sideOf. rewrite in_flat_map. split.
  - intros (b & Ib & I). apply in_flat_map in I as (f & If & I). destruct (String.eqb_spec (bcType f) t); [|destruct I].
    destruct I as [<-|[]]. eauto 8.
  - intros (b & f & Ib & If & <- & <-). exists b. split; [auto|]. apply in_flat_map. exists f. split; [auto|].
    rewrite String.eqb_refl. now left.
Qed.

Lemma sfac_of mb n b k f : sblk mb n b -> map nface (faces b) = [1;2;3;4;5;6] ->
  nth_error (faces b) k = Some f -> sfac mb n (Z.of_nat k + 1) f /\ nface f = Z.of_nat k + 1.
Proof.
  intros B N E. assert (L : (k < length (faces b))%nat) by (apply nth_error_Some; congruence).
  assert (L6 : length (faces b) = 6%nat) by (apply (f_equal (@length Z)) in N; now rewrite map_length in N).
  split.
  - exists b. split; [exact B|]. split; [lia|]. rewrite <- E. f_equal. lia.
  - apply (map_nth_error nface) in E. rewrite N in E.
    destruct k as [|[|[|[|[|[|]]]]]]; cbn in E; try (injection E; lia). lia.
Qed.

Section Sector.
Variable from : list block.
Hypothesis OK : consistent from.
Hypothesis NT : notThin from.
Hypothesis RO : rotationOnly from.
Variables (nseg : Z) (c : bool).
Hypothesis HS : 2 <= nseg.
Let N := Z.of_nat (length from).
Let low := lowside from.
Let high := highside from.

Lemma low_of j b : sblk from j b -> (memZ (nblki b) low = true <-> exists k f, sfac from j k f /\ bcType f = "periodicRotLow"%string).
Proof.
  intros B. destruct OK as [O1 _]. destruct (O1 _ _ B) as [Nb Nf].
  rewrite memZ_spec. unfold low, lowside. rewrite sideOf_spec. split.
  - intros (b' & f & Ib & If & T & E). apply In_nth_error in Ib as [i Ei]. apply In_nth_error in If as [k Ek].
    assert (B' : sblk from (Z.of_nat i) b') by (split; [lia|now rewrite Nat2Z.id]).
    destruct (O1 _ _ B') as [Nb' Nf']. destruct (sfac_of _ _ _ _ _ B' Nf' Ek) as [F _].
    assert (Q : j = Z.of_nat i) by congruence. rewrite Q. exists (Z.of_nat k + 1), f. split; [exact F|exact T].
  - intros (k & f & (b' & B' & K & E) & T). assert (b' = b) by (destruct B, B'; congruence). subst b'.
    exists b, f. split; [destruct B as [_ B]; now apply nth_error_In in B|]. split; [now apply nth_error_In in E|]. auto.
Qed.
Lemma high_of j b : sblk from j b -> (memZ (nblki b) high = true <-> exists k f, sfac from j k f /\ bcType f = "periodicRotHigh"%string).
Proof.
  intros B. destruct OK as [O1 _]. destruct (O1 _ _ B) as [Nb Nf].
  rewrite memZ_spec. unfold high, highside. rewrite sideOf_spec. split.
  - intros (b' & f & Ib & If & T & E). apply In_nth_error in Ib as [i Ei]. apply In_nth_error in If as [k Ek].
    assert (B' : sblk from (Z.of_nat i) b') by (split; [lia|now rewrite Nat2Z.id]).
    destruct (O1 _ _ B') as [Nb' Nf']. destruct (sfac_of _ _ _ _ _ B' Nf' Ek) as [F _].
    assert (Q : j = Z.of_nat i) by congruence. rewrite Q. exists (Z.of_nat k + 1), f. split; [exact F|exact T].
  - intros (k & f & (b' & B' & K & E) & T). assert (b' = b) by (destruct B, B'; congruence). subst b'.
    exists b, f. split; [destruct B as [_ B]; now apply nth_error_In in B|]. split; [now apply nth_error_In in E|]. auto.
Qed.

(** What becomes of a face in sector [s]. *)
Lemma sector_face j b k f s : sblk from j b -> sfac from j k f -> 0 <= s < nseg ->
  exists g, sectorFace N nseg c low high s b f = Some g /\ nface g = nface f /\
    (neighbor f = None -> neighbor g = None /\ bcType g = bcType f) /\
    (forall n, neighbor f = Some n -> orientation g = orientation f /\
       ((bcType f = "b0"%string /\ neighbor g = Some (s * N + n) /\ bcType g = "b0"%string) \/
        (bcType f = "periodicRotLow"%string /\ neighbor g = Some ((s - 1) mod nseg * N + n) /\
           bcType g = if (s =? 0) && negb c then "periodicRotLow"%string else "b0"%string) \/
        (bcType f = "periodicRotHigh"%string /\ neighbor g = Some ((s + 1) mod nseg * N + n) /\
           bcType g = if (s =? nseg - 1) && negb c then "periodicRotHigh"%string else "b0"%string))).
Proof.
  intros B F Hs. destruct OK as [_ O2].
  assert (M0 : (0 - 1) mod nseg = nseg - 1) by (symmetry; apply (Z.mod_unique_pos _ _ (-1)); lia).
  assert (M1 : (nseg - 1 + 1) mod nseg = 0) by (replace (nseg - 1 + 1) with nseg by ring; apply Z_mod_same_full).
  destruct (neighbor f) as [n|] eqn:En.
  2:{ destruct (O2 _ _ _ F) as [(_ & _ & Bd)|(B0 & k' & E & _)]; [|congruence].
    assert (T1 : String.eqb (bcType f) "periodicRotLow" = false).
    { apply String.eqb_neq. intros T. apply (Bd "periodicRotHigh"%string). rewrite T. cbn. tauto. }
    assert (T2 : String.eqb (bcType f) "periodicRotHigh" = false).
    { apply String.eqb_neq. intros T. apply (Bd "periodicRotLow"%string). rewrite T. cbn. tauto. }
    unfold sectorFace. destruct (Z.eqb_spec s 0) as [->|Ns].
    - exists f. split; [|split; [reflexivity|split; [auto|discriminate]]]. f_equal. unfold finishFirst. rewrite T1, T2.
      destruct (memZ (nblki b) low), (memZ (nblki b) high); reflexivity.
    - unfold rotatedFace. rewrite En. eexists. split; [reflexivity|]. unfold finishLast. rewrite T2.
      destruct (s =? nseg - 1), (memZ (nblki b) low), (memZ (nblki b) high); cbn; (split; [reflexivity|split; [auto|discriminate]]). }
  destruct (O2 _ _ _ F) as [(E & _)|(B0 & k' & E & J)]; [congruence|].
  destruct J as (f' & g' & o & o' & sx & Ff' & _ & _ & _ & _ & _ & _ & _ & _ & _ & TM).
  assert (f' = f) by (destruct F as (b1 & B1 & _ & E1), Ff' as (b2 & B2 & _ & E2); destruct B1, B2; congruence). subst f'.
  destruct (RO _ _ _ F) as [R1 R2].
  assert (TT : bcType f = "b0"%string \/ bcType f = "periodicRotLow"%string \/ bcType f = "periodicRotHigh"%string).
  { cbn in TM. destruct TM as [T|[T|[T|[T|[T|[]]]]]]; injection T as T _; rewrite <- T in *; auto; contradiction. }
  assert (NM : forall d, offset (neighbor f) d = Some (d + n)) by (intros d; rewrite En; cbn; f_equal; ring).
  destruct TT as [T|[T|T]].
  - (* interior *)
    unfold sectorFace. destruct (Z.eqb_spec s 0) as [->|Ns].
    + exists f. split; [|split; [reflexivity|split; [congruence|]]].
      * f_equal. unfold finishFirst. rewrite T. cbn. destruct (memZ (nblki b) low), (memZ (nblki b) high); reflexivity.
      * intros m Em. split; [reflexivity|]. left. repeat split; auto; try (rewrite En in *; injection Em as <-; f_equal; lia).
    + unfold rotatedFace. rewrite En, T. cbn [isPeriodic String.prefix]. cbn. eexists. split; [reflexivity|]. unfold finishLast. rewrite T. cbn.
      destruct (s =? nseg - 1), (memZ (nblki b) low), (memZ (nblki b) high); cbn; (split; [reflexivity|split; [discriminate|]]);
      intros m Em; injection Em as <-; (split; [reflexivity|]); left; (split; [reflexivity|]); (split; [|reflexivity]); f_equal; ring.
  - (* low side *)
    assert (ML : memZ (nblki b) low = true) by (apply (low_of j b B); eauto).
    unfold sectorFace. destruct (Z.eqb_spec s 0) as [->|Ns].
    + unfold finishFirst. rewrite ML, T. rewrite String.eqb_refl. eexists. split; [reflexivity|].
      cbn [Z.eqb andb]. rewrite M0, NM. destruct c; cbn [nface orientation neighbor bcType negb andb]; (split; [reflexivity|split; [congruence|]]);
      intros m Em; try rewrite En in Em; injection Em as <-; (split; [reflexivity|]); right; left; (split; [reflexivity|]); (split; [|reflexivity]); f_equal; ring.
    + unfold rotatedFace. rewrite En, T. change (isPeriodic "periodicRotLow") with true. cbv iota. rewrite ML. 
      eexists. split; [reflexivity|]. unfold finishLast. rewrite ML. rewrite <- En, NM.
      replace (s =? 0) with false by (symmetry; now apply Z.eqb_neq). cbn [andb].
      assert (MS : (s - 1) mod nseg = s - 1) by (apply Z.mod_small; lia). rewrite MS.
      destruct (s =? nseg - 1); cbn [nface orientation neighbor bcType negb andb]; (split; [reflexivity|split; [congruence|]]);
      intros m Em; try rewrite En in Em; injection Em as <-; (split; [reflexivity|]); right; left; (split; [reflexivity|]); (split; [|reflexivity]); f_equal; ring.
  - (* high side *)
    assert (MH : memZ (nblki b) high = true) by (apply (high_of j b B); eauto).
    assert (ML : memZ (nblki b) low = false).
    { destruct (memZ (nblki b) low) eqn:Q; [|reflexivity]. apply (low_of j b B) in Q as (k1 & f1 & F1 & T1).
      exfalso. now apply (NT _ _ _ _ _ F1 F T1). }
    unfold sectorFace. destruct (Z.eqb_spec s 0) as [->|Ns].
    + unfold finishFirst. rewrite ML, MH, T. rewrite String.eqb_refl. eexists. split; [reflexivity|].
      replace (0 =? nseg - 1) with false by (symmetry; apply Z.eqb_neq; lia). cbn [andb].
      assert (MS : (0 + 1) mod nseg = 1) by (apply Z.mod_small; lia). rewrite MS, NM.
      cbn [nface orientation neighbor bcType negb andb]; (split; [reflexivity|split; [congruence|]]);
      intros m Em; try rewrite En in Em; injection Em as <-; (split; [reflexivity|]); right; right; (split; [reflexivity|]); (split; [|reflexivity]); f_equal; ring.
    + unfold rotatedFace. rewrite En, T. change (isPeriodic "periodicRotHigh") with true. cbv iota. rewrite ML, MH. rewrite <- En, NM.
      replace (s - 1 =? nseg - 2) with (s =? nseg - 1) by (destruct (Z.eqb_spec s (nseg - 1)), (Z.eqb_spec (s - 1) (nseg - 2)); lia).
      unfold finishLast. rewrite ML, MH, T, String.eqb_refl.
      destruct (Z.eqb_spec s (nseg - 1)) as [->|Nl].
      * rewrite M1. eexists. split; [reflexivity|]. destruct c; cbn [nface orientation neighbor bcType negb andb]; try rewrite En; (split; [reflexivity|split; [congruence|]]);
        intros m Em; injection Em as <-; (split; [reflexivity|]); right; right; auto.
      * assert (MS : (s + 1) mod nseg = s + 1) by (apply Z.mod_small; lia). rewrite MS.
        eexists. split; [reflexivity|]. cbn [nface orientation neighbor bcType negb andb]; (split; [reflexivity|split; [congruence|]]);
        intros m Em; try rewrite En in Em; injection Em as <-; (split; [reflexivity|]); right; right; (split; [reflexivity|]); (split; [|reflexivity]); f_equal; ring.
Qed.
End Sector.
