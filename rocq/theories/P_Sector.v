(** Property C78: copies of a rotational sector.  Vocabulary: S_Sector.  Model: M_Sector. *)
From Coq Require Import ZArith String Ascii List Bool Lia Reals Lra.
From Verif Require Import M_Topology S_Topology L_Topology M_Grid S_Grid L_Grid3 M_Cut M_Sector S_Sector L_Sector.
Import ListNotations.
Open Scope Z_scope.

(** The result of the script, block by block. *)
Lemma copy_blocks from nseg angle ax : consistent (map conn from) -> notThin (map conn from) ->
  rotationOnly (map conn from) -> 2 <= nseg ->
  let cs := map conn from in let N := Z.of_nat (length from) in
  exists to, copyRotate from nseg angle ax = Some to /\ Z.of_nat (length to) = nseg * N /\
    (forall s j b, 0 <= s < nseg -> 0 <= j -> nth_error from (Z.to_nat j) = Some b ->
       exists b', nth_error to (Z.to_nat (s * N + j)) = Some b' /\
         sectorBlock N nseg (is360 nseg angle) (lowside cs) (highside cs) angle ax s b = Some b').
Proof.
  intros OK NT RO HS cs N. unfold copyRotate.
  replace (nseg <=? 1) with false by (symmetry; lia). cbv zeta. fold cs N. rewrite flat_pairs.
  set (h := sectorBlock N nseg (is360 nseg angle) (lowside cs) (highside cs) angle ax).
  assert (LC : Z.of_nat (length cs) = N) by (unfold cs, N; now rewrite map_length).
  assert (H : forall p, In p (pairsOf from (map Z.of_nat (seq 0 (Z.to_nat nseg)))) -> exists y, h (fst p) (snd p) = Some y).
  { intros [s b] Hp. unfold pairsOf in Hp. apply in_flat_map in Hp as (s' & Is & Ib). apply in_map_iff in Ib as (b' & E & Ib).
    injection E as -> ->. apply in_map_iff in Is as (i & <- & Ii). apply in_seq in Ii. cbn [fst snd].
    apply In_nth_error in Ib as [j Ej].
    assert (B : sblk cs (Z.of_nat j) (conn b)) by (split; [lia|rewrite Nat2Z.id; unfold cs; rewrite nth_error_map, Ej; reflexivity]).
    destruct OK as [O1 O2] eqn:EOK. destruct (O1 _ _ B) as [Nb Nf].
    unfold h, sectorBlock.
    destruct (allSome_ex (sectorFace N nseg (is360 nseg angle) (lowside cs) (highside cs) (Z.of_nat i) (conn b)) (faces (conn b))) as (r & E & _).
    - intros f If. apply In_nth_error in If as [k Ek]. destruct (sfac_of _ _ _ _ _ B Nf Ek) as [F _].
      destruct (sector_face cs OK NT RO nseg (is360 nseg angle) HS _ _ _ _ (Z.of_nat i) B F ltac:(lia)) as (g & Eg & _).
      rewrite LC in Eg. eauto.
    - rewrite E. eauto. }
  destruct (allSome_ex (fun p => h (fst p) (snd p)) _ H) as (to & E & L & F).
  exists to. split; [exact E|]. split.
  - rewrite L, pairs_len, map_length, seq_length, Nat2Z.inj_mul, Z2Nat.id by lia. reflexivity.
  - intros s j b Hs Hj Ej.
    assert (P : nth_error (pairsOf from (map Z.of_nat (seq 0 (Z.to_nat nseg)))) (Z.to_nat (s * N + j)) = Some (s, b)).
    { replace (Z.to_nat (s * N + j)) with (Z.to_nat s * length from + Z.to_nat j)%nat by (apply Nat2Z.inj; rewrite Nat2Z.inj_add, Nat2Z.inj_mul, !Z2Nat.id by (try unfold N; nia); fold N; lia).
      rewrite (pairs_nth from (Z.to_nat nseg) 0 (Z.to_nat s) (Z.to_nat j) b) by (auto; lia). do 2 f_equal. lia. }
    destruct (F _ _ P) as (b' & Eb & Hb). cbn [fst snd] in Hb. eauto.
Qed.

Lemma split_index n nseg N : 0 <= nseg -> 0 <= n < nseg * N -> exists s j, n = s * N + j /\ 0 <= s < nseg /\ 0 <= j < N.
Proof.
  intros P H. assert (0 < N) by nia. exists (n / N), (n mod N).
  pose proof (Z.div_mod n N ltac:(lia)). pose proof (Z.mod_pos_bound n N ltac:(lia)).
  split; [lia|]. split; [|lia]. split; [apply Z.div_pos; lia|]. apply Z.div_lt_upper_bound; lia.
Qed.

Lemma sfac_fun mb n k f g : sfac mb n k f -> sfac mb n k g -> f = g.
Proof. intros (b & [_ B] & _ & E) (b' & [_ B'] & _ & E'). congruence. Qed.

Section Result.
Variables (from : list secBlock) (nseg : Z) (angle : R) (ax : vec) (to : list secBlock).
Let cs := map conn from.
Let ts := map conn to.
Let N := Z.of_nat (length from).
Let c := is360 nseg angle.
Hypothesis OK : consistent cs.
Hypothesis NT : notThin cs.
Hypothesis RO : rotationOnly cs.
Hypothesis HS : 2 <= nseg.
Hypothesis LT : Z.of_nat (length to) = nseg * N.
Hypothesis TB : forall s j b, 0 <= s < nseg -> 0 <= j -> nth_error from (Z.to_nat j) = Some b ->
       exists b', nth_error to (Z.to_nat (s * N + j)) = Some b' /\
         sectorBlock N nseg c (lowside cs) (highside cs) angle ax s b = Some b'.

Definition become (s : Z) (f g : face) : Prop :=
    nface g = nface f /\
    (neighbor f = None -> neighbor g = None /\ bcType g = bcType f) /\
    (forall n, neighbor f = Some n -> orientation g = orientation f /\
       ((bcType f = "b0"%string /\ neighbor g = Some (s * N + n) /\ bcType g = "b0"%string) \/
        (bcType f = "periodicRotLow"%string /\ neighbor g = Some ((s - 1) mod nseg * N + n) /\
           bcType g = if (s =? 0) && negb c then "periodicRotLow"%string else "b0"%string) \/
        (bcType f = "periodicRotHigh"%string /\ neighbor g = Some ((s + 1) mod nseg * N + n) /\
           bcType g = if (s =? nseg - 1) && negb c then "periodicRotHigh"%string else "b0"%string))).

Lemma fwd s j k f : 0 <= s < nseg -> sfac cs j k f -> exists g, sfac ts (s * N + j) k g /\ become s f g.
Proof.
  intros Hs F. pose proof F as F'. destruct F' as (b & [J B] & K & Ek). unfold cs in B. rewrite nth_error_map in B.
  destruct (nth_error from (Z.to_nat j)) as [sb|] eqn:Ej; [|discriminate]. cbn in B. injection B as <-.
  destruct (TB s j sb Hs J Ej) as (b' & Eb' & H).
  assert (SB : sblk cs j (conn sb)) by (split; [exact J|unfold cs; now rewrite nth_error_map, Ej]).
  destruct OK as [O1 O2] eqn:EOK. destruct (O1 _ _ SB) as [Nb Nf].
  unfold sectorBlock in H.
  assert (LC : Z.of_nat (length cs) = N) by (unfold cs, N; now rewrite map_length).
  destruct (allSome_ex (sectorFace N nseg c (lowside cs) (highside cs) s (conn sb)) (faces (conn sb))) as (r & E & _ & FF).
  { intros f0 If. apply In_nth_error in If as [k0 Ek0]. destruct (sfac_of _ _ _ _ _ SB Nf Ek0) as [F0 _].
    destruct (sector_face cs OK NT RO nseg c HS _ _ _ _ s SB F0 Hs) as (g & Eg & _). rewrite LC in Eg. eauto. }
  rewrite E in H. destruct (FF _ _ Ek) as (g & Eg & Hg).
  exists g. split.
  - exists (conn b'). split; [split; [nia|unfold ts; now rewrite nth_error_map, Eb']|]. split; [exact K|].
    assert (V : faces (conn b') = r) by (injection H as <-; reflexivity). now rewrite V.
  - destruct (sector_face cs OK NT RO nseg c HS _ _ _ _ s SB F Hs) as (g' & Eg' & R). rewrite LC in Eg', R.
    assert (g' = g) by congruence. subst g'. exact R.
Qed.

Lemma bwd n k g : sfac ts n k g -> exists s j f, n = s * N + j /\ 0 <= s < nseg /\ 0 <= j < N /\ sfac cs j k f /\ become s f g.
Proof.
  intros G. pose proof G as (b & [Hn B] & K & Ek).
  assert (L : (Z.to_nat n < length ts)%nat) by (apply nth_error_Some; congruence). unfold ts in L. rewrite map_length in L.
  destruct (split_index n nseg N ltac:(lia) ltac:(lia)) as (s & j & -> & Hs & Hj).
  assert (LC : Z.of_nat (length cs) = N) by (unfold cs, N; now rewrite map_length).
  destruct (nth_error cs (Z.to_nat j)) as [fb|] eqn:Ej; [|apply nth_error_None in Ej; lia].
  assert (SB : sblk cs j fb) by (split; [lia|exact Ej]). destruct OK as [O1 O2]. destruct (O1 _ _ SB) as [Nb Nf].
  assert (L6 : length (faces fb) = 6%nat) by (apply (f_equal (@length Z)) in Nf; now rewrite map_length in Nf).
  destruct (nth_error (faces fb) (Z.to_nat (k - 1))) as [f|] eqn:Ef; [|apply nth_error_None in Ef; lia].
  assert (F : sfac cs j k f) by (exists fb; auto).
  destruct (fwd s j k f Hs F) as (g' & G' & R). rewrite <- (sfac_fun _ _ _ _ _ G G') in R. exists s, j, f. auto.
Qed.

Lemma inv_mod s : 0 <= s < nseg -> ((s - 1) mod nseg + 1) mod nseg = s /\ ((s + 1) mod nseg - 1) mod nseg = s.
Proof.
  intros H. split.
  - rewrite Zplus_mod_idemp_l. replace (s - 1 + 1) with s by ring. now apply Z.mod_small.
  - rewrite Zminus_mod_idemp_l. replace (s + 1 - 1) with s by ring. now apply Z.mod_small.
Qed.

Lemma result_consistent : consistent ts.
Proof.
  split.
  - intros n b H. assert (L : (Z.to_nat n < length ts)%nat) by (apply nth_error_Some; destruct H; congruence).
    unfold ts in L. rewrite map_length in L. pose proof H as [Hn B].
    destruct (split_index n nseg N ltac:(lia) ltac:(lia)) as (s & j & -> & Hs & Hj).
    assert (LC : Z.of_nat (length cs) = N) by (unfold cs, N; now rewrite map_length).
    destruct (nth_error from (Z.to_nat j)) as [sb|] eqn:Ej; [|apply nth_error_None in Ej; unfold N in Hj; lia].
    assert (SB : sblk cs j (conn sb)) by (split; [lia|unfold cs; now rewrite nth_error_map, Ej]).
    pose proof (proj1 OK _ _ SB) as [Nb Nf].
    destruct (TB s j sb Hs ltac:(lia) Ej) as (b' & Eb' & Hb').
    unfold ts in B. rewrite nth_error_map, Eb' in B. cbn in B. injection B as <-.
    assert (Nn : nblki (conn b') = s * N + j).
    { unfold sectorBlock in Hb'. destruct allSome; [|discriminate]. injection Hb' as <-. cbn. now rewrite Nb. }
    split; [exact Nn|].
    assert (L6 : length (faces (conn sb)) = 6%nat) by (apply (f_equal (@length Z)) in Nf; now rewrite map_length in Nf).
    assert (LB : length (faces (conn b')) = 6%nat).
    { unfold sectorBlock in Hb'. destruct allSome as [fs|] eqn:E; [|discriminate]. injection Hb' as <-. cbn.
      assert (G : forall (l : list (option face)) r, allSome l = Some r -> length r = length l).
      { induction l as [|[x|] l IH]; intros r Er; cbn in Er; try discriminate; [injection Er as <-; reflexivity|].
        destruct (allSome l); [|discriminate]. injection Er as <-. cbn. f_equal. now apply IH. }
      rewrite (G _ _ E), map_length. exact L6. }
    assert (X : forall i, (i < 6)%nat -> nth_error (map nface (faces (conn b'))) i = Some (Z.of_nat i + 1)).
    { intros i Hi. destruct (nth_error (faces (conn b')) i) as [g|] eqn:Eg; [|apply nth_error_None in Eg; lia].
      rewrite nth_error_map, Eg. cbn. f_equal.
      assert (G : sfac ts (s * N + j) (Z.of_nat i + 1) g).
      { exists (conn b'). split; [exact H|]. split; [lia|]. rewrite <- Eg. f_equal. lia. }
      destruct (nth_error (faces (conn sb)) i) as [f|] eqn:Ef; [|apply nth_error_None in Ef; lia].
      destruct (sfac_of _ _ _ _ _ SB Nf Ef) as [F Fn]. destruct (fwd s j _ f Hs F) as (g' & G' & R & _).
      rewrite (sfac_fun _ _ _ _ _ G G'), R. exact Fn. }
    destruct (faces (conn b')) as [|g1 [|g2 [|g3 [|g4 [|g5 [|g6 [|]]]]]]]; cbn in LB; try discriminate LB.
    pose proof (X 0%nat ltac:(lia)). pose proof (X 1%nat ltac:(lia)). pose proof (X 2%nat ltac:(lia)).
    pose proof (X 3%nat ltac:(lia)). pose proof (X 4%nat ltac:(lia)). pose proof (X 5%nat ltac:(lia)). cbn in *. congruence.
  - intros A k g G. destruct (bwd _ _ _ G) as (s & j & f & -> & Hs & Hj & F & RN & R0 & R1).
    destruct (proj2 OK _ _ _ F) as [[En Bd]|(B & k' & En & J)].
    + left. destruct (R0 En) as [A1 A2]. rewrite A2. auto.
    + right. destruct (R1 _ En) as [Or D]. 
      destruct J as (f0 & f' & o & o' & sx & F0 & F' & N1 & N2 & Lo & Iv & O1 & O2 & W1 & W2 & TM).
      rewrite (sfac_fun _ _ _ _ _ F0 F) in *. clear f0 F0.
      destruct (inv_mod s Hs) as [I1 I2].
      assert (ML : forall t, 0 <= t mod nseg < nseg) by (intros t; apply Z.mod_pos_bound; lia).
      assert (GO : forall s', 0 <= s' < nseg -> neighbor g = Some (s' * N + B) ->
        (forall g', become s' f' g' -> neighbor g' = Some (s * N + j) /\ typesMatch (bcType g) (bcType g')) ->
        exists B0 k0, neighbor g = Some B0 /\ joins ts (s * N + j) k B0 k0).
      { intros s' Hs' Ng Hg'. destruct (fwd s' B k' f' Hs' F') as (g' & G' & R'). destruct (Hg' _ R') as [Ng' Tm].
        exists (s' * N + B), k'. split; [exact Ng|]. exists g, g', o, o', sx.
        split; [exact G|]. split; [exact G'|]. split; [exact Ng|]. split; [exact Ng'|]. split; [exact Lo|]. split; [exact Iv|].
        split; [rewrite Or; exact O1|]. split; [rewrite (proj1 (proj2 (proj2 R') _ N2)); exact O2|].
        split; [exact W1|]. split; [exact W2|exact Tm]. }
      destruct D as [(T & Ng & Tg)|[(T & Ng & Tg)|(T & Ng & Tg)]]; rewrite T in TM; cbn in TM.
      * apply (GO s Hs Ng). intros g' (_ & _ & R'). destruct (R' _ N2) as [_ D'].
        assert (T' : bcType f' = "b0"%string) by (destruct TM as [Q|[Q|[Q|[Q|[Q|[]]]]]]; injection Q; congruence).
        destruct D' as [(X & Y & Z)|[(X & _)|(X & _)]]; try congruence. split; [exact Y|]. rewrite Tg, Z. now left.
      * apply (GO _ (ML _) Ng). intros g' (_ & _ & R'). destruct (R' _ N2) as [_ D'].
        assert (T' : bcType f' = "periodicRotHigh"%string) by (destruct TM as [Q|[Q|[Q|[Q|[Q|[]]]]]]; injection Q; congruence).
        destruct D' as [(X & _)|[(X & _)|(X & Y & Z)]]; try congruence. rewrite I1 in Y. split; [exact Y|].
        assert (Q : ((s - 1) mod nseg =? nseg - 1) = (s =? 0)).
        { destruct (Z.eqb_spec s 0) as [->|Ns].
          - replace ((0 - 1) mod nseg) with (nseg - 1) by (apply (Z.mod_unique_pos _ _ (-1)); lia). apply Z.eqb_refl.
          - rewrite (Z.mod_small (s - 1)) by lia. apply Z.eqb_neq. lia. }
        rewrite Q in Z. rewrite Tg, Z. destruct ((s =? 0) && negb c); cbn; auto.
      * apply (GO _ (ML _) Ng). intros g' (_ & _ & R'). destruct (R' _ N2) as [_ D'].
        assert (T' : bcType f' = "periodicRotLow"%string) by (destruct TM as [Q|[Q|[Q|[Q|[Q|[]]]]]]; injection Q; congruence).
        destruct D' as [(X & _)|[(X & Y & Z)|(X & _)]]; try congruence. rewrite I2 in Y. split; [exact Y|].
        assert (Q : ((s + 1) mod nseg =? 0) = (s =? nseg - 1)).
        { destruct (Z.eqb_spec s (nseg - 1)) as [->|Ns].
          - replace (nseg - 1 + 1) with nseg by ring. rewrite Z_mod_same_full. reflexivity.
          - rewrite (Z.mod_small (s + 1)) by lia. apply Z.eqb_neq. lia. }
        rewrite Q in Z. rewrite Tg, Z. destruct ((s =? nseg - 1) && negb c); cbn; auto.
Qed.
End Result.

(** C78.  For every consistently connected sector whose low and high sides lie on different
    blocks, and every number of segments, the result is consistently connected; sector [s] is
    joined to the sectors before and after it (cyclically) across its low and high sides and
    internally as the original; and rotational periodicity survives exactly at the outer sides of
    an incomplete annulus. *)
Theorem C78_sector_connected : forall from nseg angle ax,
  consistent (map conn from) -> notThin (map conn from) -> rotationOnly (map conn from) -> 2 <= nseg ->
  let N := Z.of_nat (length from) in
  exists to, copyRotate from nseg angle ax = Some to /\
    Z.of_nat (length to) = nseg * N /\ consistent (map conn to) /\
    (forall s j k f, 0 <= s < nseg -> sfac (map conn from) j k f ->
       exists g, sfac (map conn to) (s * N + j) k g /\
         (neighbor f = None -> neighbor g = None /\ bcType g = bcType f) /\
         (forall n, neighbor f = Some n ->
            (bcType f = "b0"%string -> neighbor g = Some (s * N + n) /\ bcType g = "b0"%string) /\
            (bcType f = "periodicRotLow"%string ->
               neighbor g = Some ((if s =? 0 then nseg - 1 else s - 1) * N + n) /\
               (is360 nseg angle = true \/ s <> 0 <-> bcType g = "b0"%string)) /\
            (bcType f = "periodicRotHigh"%string ->
               neighbor g = Some ((if s =? nseg - 1 then 0 else s + 1) * N + n) /\
               (is360 nseg angle = true \/ s <> nseg - 1 <-> bcType g = "b0"%string)))).
Proof.
  intros from nseg angle ax OK NT RO HS N.
  destruct (copy_blocks from nseg angle ax OK NT RO HS) as (to & E & L & TB). fold N in L, TB.
  exists to. split; [exact E|]. split; [exact L|]. split.
  - eapply result_consistent; eauto.
  - intros s j k f Hs F. destruct (fwd from nseg angle ax to OK NT RO HS TB s j k f Hs F) as (g & G & _ & R0 & R1).
    exists g. split; [exact G|]. split; [exact R0|]. intros n En. destruct (R1 _ En) as [_ D].
    split; [|split]; intros T; destruct D as [(X & Y & Z)|[(X & Y & Z)|(X & Y & Z)]]; try congruence.
    + auto.
    + split.
      * rewrite Y. do 3 f_equal. destruct (Z.eqb_spec s 0) as [->|Ns]; [symmetry; apply (Z.mod_unique_pos _ _ (-1)); lia|apply Z.mod_small; lia].
      * rewrite Z. destruct (Z.eqb_spec s 0), (is360 nseg angle); cbn; split; intuition congruence.
    + split.
      * rewrite Y. do 3 f_equal. destruct (Z.eqb_spec s (nseg - 1)) as [->|Ns]; [replace (nseg - 1 + 1) with nseg by ring; apply Z_mod_same_full|apply Z.mod_small; lia].
      * rewrite Z. destruct (Z.eqb_spec s (nseg - 1)), (is360 nseg angle); cbn; split; intuition congruence.
Qed.
