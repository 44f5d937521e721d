(** Properties C134 (grid statistics) and C135 (automatic cutting decision).
    Vocabulary: S_Analyze, S_Cut.  Model: M_Analyze, M_Cut. *)
From Coq Require Import ZArith String List Bool Lia Reals Lra Permutation.
From Verif Require Import M_Topology S_Topology L_Topology P_Topology M_Cut S_Cut L_Cut L_Cut2 P_Cut P_CutPath M_Analyze S_Analyze.
Import ListNotations.
Open Scope Z_scope.

Lemma blockCells_count b : blockCells b = cellCount b.
Proof. unfold blockCells, cellCount, points. destruct (gshape b) as [[x y] z]. reflexivity. Qed.

Lemma set_nth_len {A} (l : list A) : forall i v, length (set_nth l i v) = length l.
Proof. induction l as [|h t IH]; intros [|i] v; cbn; auto. Qed.
Lemma set_nth_eq {A} (l : list A) : forall i v, (i < length l)%nat -> nth_error (set_nth l i v) i = Some v.
Proof. induction l as [|h t IH]; intros [|i] v H; cbn in *; try lia; [reflexivity|apply IH; lia]. Qed.
Lemma set_nth_neq {A} (l : list A) : forall i k v, i <> k -> nth_error (set_nth l i v) k = nth_error l k.
Proof. induction l as [|h t IH]; intros [|i] [|k] v H; cbn in *; try congruence; try reflexivity. apply IH. lia. Qed.

Lemma fill_ok n : forall bs size, length size = n -> NoDup (map gn bs) ->
  (forall b, In b bs -> 0 <= gn b < Z.of_nat n) ->
  exists size', fillSizes bs size = Some size' /\ length size' = n /\
    (forall b, In b bs -> nth_error size' (Z.to_nat (gn b)) = Some (cellCount b)) /\
    (forall k, ~ In (Z.of_nat k) (map gn bs) -> nth_error size' k = nth_error size k).
Proof.
  induction bs as [|b r IH]; intros size L ND Rg.
  - exists size. repeat split; try easy.
  - cbn [fillSizes]. unfold setItem. rewrite L.
    assert (B := Rg b (or_introl eq_refl)).
    replace ((0 <=? gn b) && (gn b <? Z.of_nat n)) with true by (symmetry; apply andb_true_intro; lia).
    cbn [map] in ND. inversion ND as [|? ? Nb Nr]; subst.
    destruct (IH (set_nth size (Z.to_nat (gn b)) (blockCells b))) as (s & E & Ls & F & U).
    + rewrite set_nth_len. reflexivity.
    + exact Nr.
    + intros c Hc. apply Rg. now right.
    + exists s. split; [exact E|]. split; [exact Ls|]. split.
      * intros c [<-|Hc]; [|now apply F]. rewrite U.
        -- rewrite set_nth_eq by lia. f_equal. apply blockCells_count.
        -- rewrite Z2Nat.id by lia. exact Nb.
      * intros k Hk. cbn [map In] in Hk. rewrite U by tauto. apply set_nth_neq. intros <-. apply Hk. left. lia.
Qed.

Lemma numbered_facts mb : numbered mb -> NoDup (map gn mb) /\
  (forall b, In b mb -> 0 <= gn b < Z.of_nat (length mb)) /\
  (forall k, (k < length mb)%nat -> exists b, In b mb /\ gn b = Z.of_nat k).
Proof.
  intros P. split; [|split].
  - apply (Permutation_NoDup (Permutation_sym P)). apply nodup_map_in; [apply seq_NoDup|]. intros x y _ _. lia.
  - intros b Hb. assert (I : In (gn b) (map gn mb)) by now apply in_map.
    apply (Permutation_in _ P) in I. apply in_map_iff in I as (k & E & Hk). apply in_seq in Hk. lia.
  - intros k Hk. assert (I : In (Z.of_nat k) (map Z.of_nat (seq 0 (length mb)))) by (apply in_map, in_seq; lia).
    apply (Permutation_in _ (Permutation_sym P)) in I. apply in_map_iff in I as (b & E & Hb). eauto.
Qed.

Lemma nodup_inj {A B} (f : A -> B) l x y : NoDup (map f l) -> In x l -> In y l -> f x = f y -> x = y.
Proof.
  induction l as [|h t IH]; intros ND Hx Hy E; [easy|]. cbn in ND. inversion ND as [|? ? Nh Nt]; subst.
  destruct Hx as [<-|Hx], Hy as [<-|Hy]; auto.
  - exfalso. apply Nh. rewrite E. now apply in_map.
  - exfalso. apply Nh. rewrite <- E. now apply in_map.
Qed.

Lemma getBlk_numbered mb b : numbered mb -> In b mb -> getBlk mb (gn b) = Some b.
Proof.
  intros P Hb. destruct (numbered_facts _ P) as (ND & Rg & _). assert (B := Rg b Hb).
  unfold getBlk, py_index. replace ((0 <=? gn b) && (gn b <? Z.of_nat (length mb))) with true by (symmetry; apply andb_true_intro; lia).
  destruct (nth_error mb (Z.to_nat (gn b))) as [c|] eqn:E.
  2:{ apply nth_error_None in E. lia. }
  destruct (gn c =? gn b) eqn:Q.
  - f_equal. apply Z.eqb_eq in Q. apply nth_error_In in E. eapply nodup_inj; eauto.
  - destruct (find _ mb) as [d|] eqn:F.
    + apply find_some in F as [I H]. apply Z.eqb_eq in H. f_equal. eapply nodup_inj; eauto.
    + exfalso. apply (find_none _ _ F) in Hb. rewrite Z.eqb_refl in Hb. discriminate.
Qed.

(** The size array is, position by position, the cell count of the block with that number. *)
Lemma sizes mb : numbered mb -> exists size, fillSizes mb (repeat 0 (length mb)) = Some size /\
  length size = length mb /\ Permutation size (map cellCount mb) /\
  (forall k v, nth_error size k = Some v -> exists b, In b mb /\ gn b = Z.of_nat k /\ cellCount b = v) /\
  (forall b, In b mb -> nth_error size (Z.to_nat (gn b)) = Some (cellCount b)).
Proof.
  intros P. destruct (numbered_facts _ P) as (ND & Rg & Ex).
  destruct (fill_ok (length mb) mb (repeat 0 (length mb)) (repeat_length _ _) ND Rg) as (s & E & L & F & _).
  exists s. split; [exact E|]. split; [exact L|].
  assert (G : forall k v, nth_error s k = Some v -> exists b, In b mb /\ gn b = Z.of_nat k /\ cellCount b = v).
  { intros k v Hk. assert (k < length s)%nat by (apply nth_error_Some; congruence).
    destruct (Ex k ltac:(lia)) as (b & Hb & Eb). exists b. split; [exact Hb|]. split; [exact Eb|].
    assert (Q := F b Hb). rewrite Eb, Nat2Z.id in Q. congruence. }
  split; [|split; assumption].
  set (f := fun z => nth (Z.to_nat z) s 0).
  assert (A : s = map f (map Z.of_nat (seq 0 (length mb)))).
  { rewrite map_map. unfold f. rewrite (map_ext _ (fun k => nth k s 0)) by (intros k; now rewrite Nat2Z.id).
    rewrite <- L. clear. induction s as [|h t IH]; [reflexivity|]. cbn [length seq map nth]. f_equal.
    rewrite <- seq_shift, map_map. cbn [nth]. exact IH. }
  assert (B : map cellCount mb = map f (map gn mb)).
  { rewrite map_map. apply map_ext_in. intros b Hb. unfold f. symmetry. apply nth_error_nth. now apply F. }
  rewrite B, A. apply Permutation_map. now apply Permutation_sym.
Qed.

Lemma argBest_spec (better : Z -> Z -> bool) (lt : Z -> Z -> Prop) :
  (forall x y, better x y = true <-> lt x y) ->
  (forall x y z, lt x y -> ~ lt z y -> lt x z) -> (forall x, ~ lt x x) -> (forall x y z, lt x y -> lt y z -> lt x z) ->
  forall l pre best v, nth_error pre best = Some v ->
  (forall k u, nth_error pre k = Some u -> ~ lt u v) ->
  (forall k u, (k < best)%nat -> nth_error pre k = Some u -> lt v u) ->
  let '(b, w) := argBest better l (length pre) best v in
  nth_error (pre ++ l) b = Some w /\ (forall k u, nth_error (pre ++ l) k = Some u -> ~ lt u w) /\
  (forall k u, (k < b)%nat -> nth_error (pre ++ l) k = Some u -> lt w u).
Proof.
  intros BS T3 IR TR. induction l as [|h t IH]; intros pre best v Hb Hm Hf.
  - cbn. rewrite app_nil_r. auto.
  - cbn [argBest].
    assert (Q : forall k u, nth_error (pre ++ [h]) k = Some u -> (k < length pre)%nat /\ nth_error pre k = Some u \/ k = length pre /\ u = h).
    { intros k u Hk. destruct (Nat.lt_ge_cases k (length pre)).
      - left. rewrite nth_error_app1 in Hk by lia. auto.
      - right. rewrite nth_error_app2 in Hk by lia. destruct (k - length pre)%nat as [|m] eqn:Em; cbn in Hk; [split; [lia|congruence]|].
        destruct m; discriminate. }
    replace (S (length pre)) with (length (pre ++ [h])) by (rewrite app_length; cbn; lia).
    replace (pre ++ h :: t) with ((pre ++ [h]) ++ t) by (rewrite <- app_assoc; reflexivity).
    destruct (better h v) eqn:X.
    + apply BS in X. apply IH.
      * rewrite nth_error_app2, Nat.sub_diag by lia. reflexivity.
      * intros k u Hk. destruct (Q _ _ Hk) as [[_ G]|[_ ->]]; [|apply IR]. intros L. apply (Hm _ _ G). eapply TR; eauto.
      * intros k u Hk G. destruct (Q _ _ G) as [[_ G']|[E _]]; [|lia]. apply (T3 h v u); [exact X|]. eapply Hm; eauto.
    + assert (X' : ~ lt h v) by (intros L; apply BS in L; congruence). apply IH.
      * rewrite nth_error_app1; [exact Hb|]. apply nth_error_Some. congruence.
      * intros k u Hk. destruct (Q _ _ Hk) as [[_ G]|[_ ->]]; [eapply Hm; eauto|exact X'].
      * intros k u Hk G. assert (best < length pre)%nat by (apply nth_error_Some; congruence).
        destruct (Q _ _ G) as [[_ G']|[E _]]; [eapply Hf; eauto|lia].
Qed.

Lemma argmax_spec l : l <> [] -> let '(b, w) := argmax l in
  nth_error l b = Some w /\ (forall k u, nth_error l k = Some u -> u <= w) /\
  (forall k u, (k < b)%nat -> nth_error l k = Some u -> u < w).
Proof.
  destruct l as [|h t]; [congruence|]. intros _. unfold argmax. cbn [hd tl].
  pose proof (argBest_spec (fun x v => v <? x) (fun x v => v < x)) as A.
  specialize (A ltac:(cbv beta; intros; lia) ltac:(cbv beta; intros; lia) ltac:(cbv beta; intros; lia) ltac:(cbv beta; intros; lia) t [h] 0%nat h eq_refl).
  specialize (A ltac:(intros [|[|k]] u H; cbn in H; try discriminate; injection H as <-; lia) ltac:(intros; lia)).
  cbn [length] in A. destruct (argBest _ t 1 0 h) as [b w]. cbn [app] in A. destruct A as (A1 & A2 & A3).
  split; [exact A1|]. split; [intros k u H; apply A2 in H; lia|intros k u L H; apply (A3 k u L) in H; lia].
Qed.
Lemma argmin_spec l : l <> [] -> let '(b, w) := argmin l in
  nth_error l b = Some w /\ (forall k u, nth_error l k = Some u -> w <= u) /\
  (forall k u, (k < b)%nat -> nth_error l k = Some u -> w < u).
Proof.
  destruct l as [|h t]; [congruence|]. intros _. unfold argmin. cbn [hd tl].
  pose proof (argBest_spec (fun x v => x <? v) (fun x v => x < v)) as A.
  specialize (A ltac:(cbv beta; intros; lia) ltac:(cbv beta; intros; lia) ltac:(cbv beta; intros; lia) ltac:(cbv beta; intros; lia) t [h] 0%nat h eq_refl).
  specialize (A ltac:(intros [|[|k]] u H; cbn in H; try discriminate; injection H as <-; lia) ltac:(intros; lia)).
  cbn [length] in A. destruct (argBest _ t 1 0 h) as [b w]. cbn [app] in A. destruct A as (A1 & A2 & A3).
  split; [exact A1|]. split; [intros k u H; apply A2 in H; lia|intros k u L H; apply (A3 k u L) in H; lia].
Qed.

Lemma rsum_acc l : forall a, fold_left Rplus l a = (a + rsum l)%R.
Proof.
  unfold rsum. induction l as [|h t IH]; intros a; cbn [fold_left]; [ring|]. rewrite IH, (IH (0 + h)%R). ring.
Qed.
Lemma rsum_cons h t : rsum (h :: t) = (h + rsum t)%R.
Proof. unfold rsum at 1. cbn [fold_left]. rewrite rsum_acc. ring. Qed.
Lemma rsum_perm l l' : Permutation l l' -> rsum l = rsum l'.
Proof. induction 1; rewrite ?rsum_cons in *; try lra; congruence. Qed.
Lemma zsum_rsum l : IZR (zsum l) = rsum (map IZR l).
Proof.
  unfold zsum, rsum. generalize 0%Z. induction l as [|h t IH]; intros a; [reflexivity|].
  cbn [fold_left map]. rewrite IH, plus_IZR. reflexivity.
Qed.
Lemma rsum_total f mb : rsum (map f mb) = total f mb.
Proof. induction mb as [|b r IH]; [reflexivity|]. cbn [map total]. rewrite rsum_cons, IH. reflexivity. Qed.

Lemma total_nonneg f mb : (forall b, In b mb -> (0 <= f b)%R) -> (0 <= total f mb)%R.
Proof. induction mb as [|b r IH]; intros H; cbn; [lra|]. specialize (H b (or_introl eq_refl)) as H0. 
  assert (0 <= total f r)%R by (apply IH; intros c Hc; apply H; now right). lra. Qed.
Lemma total_zero f mb : (forall b, In b mb -> (0 <= f b)%R) -> total f mb = 0%R -> forall b, In b mb -> f b = 0%R.
Proof.
  induction mb as [|c r IH]; intros H E b Hb; [easy|]. cbn in E.
  assert (0 <= f c)%R by (apply H; now left). assert (0 <= total f r)%R by (apply total_nonneg; intros; apply H; now right).
  destruct Hb as [<-|Hb]; [lra|]. apply IH; auto; [intros; apply H; now right|lra].
Qed.
Lemma total_bounds f lo hi mb : (forall b, In b mb -> (lo <= f b <= hi)%R) ->
  (lo * INR (length mb) <= total f mb <= hi * INR (length mb))%R.
Proof.
  induction mb as [|c r IH]; intros H; cbn [total length]; [cbn; lra|]. rewrite S_INR.
  assert (A := H c (or_introl eq_refl)). assert (B := IH (fun b Hb => H b (or_intror Hb))). lra.
Qed.
Lemma total_const f v mb : (forall b, In b mb -> f b = v) -> total f mb = (v * INR (length mb))%R.
Proof. intros H. assert (A := total_bounds f v v mb ltac:(intros b Hb; rewrite (H b Hb); lra)). lra. Qed.

(** C134.  For every grid whose blocks carry the numbers 0..n-1 (in any order) and all have cells,
    the statistics report: the total number of cells; the largest and the smallest block - the lowest
    number among equals - with its cells and its point counts; the mean; the standard deviation. *)
Theorem C134_statistics : forall mb, mb <> [] -> numbered mb -> (forall b, In b mb -> 0 < cellCount b) ->
  exists st, analyze mb = Some st /\
    IZR (totalCells st) = total (fun b => IZR (cellCount b)) mb /\
    (exists b, extreme (fun x y => y < x) mb b /\ maxNblki st = gn b /\ maxCells st = cellCount b /\ maxNx st = gshape b) /\
    (exists b, extreme (fun x y => x < y) mb b /\ minNblki st = gn b /\ minCells st = cellCount b /\ minNx st = gshape b) /\
    (mean st * INR (length mb))%R = IZR (totalCells st) /\
    (0 <= stdv st)%R /\
    (stdv st * stdv st * INR (length mb))%R =
      total (fun b => (IZR (cellCount b) - mean st) * (IZR (cellCount b) - mean st))%R mb.
Proof.
  intros mb NE NB Pos. destruct (sizes mb NB) as (s & E & L & Pm & F & G).
  assert (Ls : (0 < length s)%nat) by (rewrite L; destruct mb; [congruence|cbn; lia]).
  assert (NEs : s <> []) by (destruct s; [cbn in Ls; lia|congruence]).
  unfold analyze. rewrite E. replace (length s =? 0)%nat with false by (symmetry; apply Nat.eqb_neq; lia).
  pose proof (argmax_spec s NEs) as AM. destruct (argmax s) as [M w]. destruct AM as (M1 & M2 & M3).
  pose proof (argmin_spec s NEs) as AN. destruct (argmin s) as [m v]. destruct AN as (N1 & N2 & N3).
  cbn [fst snd]. destruct (numbered_facts _ NB) as (_ & Rg & _). destruct (F _ _ M1) as (big & Ib & Nb & Cb). destruct (F _ _ N1) as (small & Is & Ns & Cs).
  assert (0 < v) by (rewrite <- Cs; now apply Pos). replace (0 <? v) with true by (symmetry; lia). cbn [negb].
  rewrite <- Nb, <- Ns, !getBlk_numbered by assumption.
  eexists. split; [reflexivity|]. cbn [totalCells maxNblki maxCells maxNx minNblki minCells minNx mean stdv].
  assert (Tot : IZR (zsum s) = total (fun b => IZR (cellCount b)) mb).
  { rewrite zsum_rsum. rewrite (rsum_perm _ _ (Permutation_map IZR Pm)), map_map. apply rsum_total. }
  assert (NZ : (0 < INR (length mb))%R) by (apply lt_0_INR; lia).
  assert (Mn : npMean (map IZR s) = (total (fun b => IZR (cellCount b)) mb / INR (length mb))%R).
  { unfold npMean. rewrite map_length, L, <- zsum_rsum, Tot. reflexivity. }
  split; [exact Tot|].
  split. { exists big. split; [|auto]. split; [exact Ib|]. intros c Hc. assert (Q := G c Hc). assert (Rc := Rg c Hc).
    destruct (Z_lt_le_dec (gn c) (gn big)).
    - left. rewrite Cb. apply (M3 (Z.to_nat (gn c))); [lia|exact Q].
    - apply M2 in Q. rewrite Cb. lia. }
  split. { exists small. split; [|auto]. split; [exact Is|]. intros c Hc. assert (Q := G c Hc). assert (Rc := Rg c Hc).
    destruct (Z_lt_le_dec (gn c) (gn small)).
    - left. rewrite Cs. apply (N3 (Z.to_nat (gn c))); [lia|exact Q].
    - apply N2 in Q. rewrite Cs. lia. }
  split; [rewrite Mn, Tot; field; lra|].
  split; [apply sqrt_pos|]. unfold npStd.
  set (mu := npMean (map IZR s)) in *.
  assert (V : npMean (map (fun x => (x - mu) * (x - mu))%R (map IZR s)) =
              (total (fun b => (IZR (cellCount b) - mu) * (IZR (cellCount b) - mu))%R mb / INR (length mb))%R).
  { unfold npMean. rewrite !map_length, L. f_equal. rewrite map_map.
    rewrite (rsum_perm _ _ (Permutation_map _ Pm)), map_map. apply rsum_total. }
  rewrite V. assert (0 <= total (fun b => (IZR (cellCount b) - mu) * (IZR (cellCount b) - mu)) mb)%R.
  { apply total_nonneg. intros b _. apply Rle_0_sqr. }
  rewrite sqrt_sqrt; [field; lra|]. apply Rmult_le_pos; [assumption|]. left. now apply Rinv_0_lt_compat.
Qed.

(** The consequences a user reads off: the mean lies between the extremes, and the standard deviation
    is zero exactly when all blocks have the same number of cells. *)
Theorem C134_balance : forall mb st, mb <> [] -> numbered mb -> (forall b, In b mb -> 0 < cellCount b) ->
  analyze mb = Some st ->
  (IZR (minCells st) <= mean st <= IZR (maxCells st))%R /\
  (stdv st = 0%R <-> forall b c, In b mb -> In c mb -> cellCount b = cellCount c).
Proof.
  intros mb st NE NB Pos E. destruct (C134_statistics mb NE NB Pos) as (st' & E' & T & (big & XB & _ & CB & _) & (sm & XS & _ & CS & _) & M & S0 & SV).
  assert (st' = st) by congruence. subst st'. clear E'.
  assert (NZ : (0 < INR (length mb))%R) by (apply lt_0_INR; destruct mb; [congruence|cbn; lia]).
  assert (Bd : forall b, In b mb -> (IZR (minCells st) <= IZR (cellCount b) <= IZR (maxCells st))%R).
  { intros b Hb. destruct XB as [_ XB], XS as [_ XS]. specialize (XB b Hb). specialize (XS b Hb).
    split; apply IZR_le; lia. }
  assert (TB := total_bounds _ _ _ mb Bd). rewrite <- T, <- M in TB.
  split. { destruct TB as [T1 T2]. split; eapply Rmult_le_reg_r; eauto. }
  split.
  - intros Z0. rewrite Z0 in SV. assert (Q : total (fun b => (IZR (cellCount b) - mean st) * (IZR (cellCount b) - mean st))%R mb = 0%R) by lra.
    assert (W : forall b, In b mb -> IZR (cellCount b) = mean st).
    { intros b Hb. assert (A := total_zero _ mb (fun b _ => Rle_0_sqr _) Q b Hb). cbv beta in A.
      apply Rmult_integral in A. lra. }
    intros b c Hb Hc. apply eq_IZR. rewrite (W b Hb), (W c Hc). reflexivity.
  - intros H. destruct XB as [Ib _]. 
    assert (Ev : forall b, In b mb -> IZR (cellCount b) = IZR (cellCount big)) by (intros b Hb; f_equal; now apply H).
    rewrite (total_const _ _ mb Ev) in T.
    assert (mean st = IZR (cellCount big)).
    { apply Rmult_eq_reg_r with (INR (length mb)); lra. }
    rewrite (total_const _ 0%R mb) in SV.
    + assert (stdv st * stdv st = 0)%R. { apply Rmult_eq_reg_r with (INR (length mb)); lra. }
      apply Rmult_integral in H1. lra.
    + intros b Hb. rewrite (Ev b Hb), H0. ring.
Qed.

(** A block without cells (or an empty grid) is refused. *)
Theorem C134_refuses : forall mb, numbered mb -> (mb = [] \/ exists b, In b mb /\ cellCount b <= 0) -> analyze mb = None.
Proof.
  intros mb NB [->|(b & Hb & Cb)]; [reflexivity|]. destruct (sizes mb NB) as (s & E & L & Pm & F & G).
  unfold analyze. rewrite E. destruct (length s =? 0)%nat eqn:Z0; [reflexivity|].
  assert (NEs : s <> []) by (destruct s; [discriminate|congruence]).
  pose proof (argmin_spec s NEs) as AN. destruct (argmin s) as [m v]. destruct AN as (_ & N2 & _). cbn [snd].
  apply G in Hb. apply N2 in Hb. replace (0 <? v) with false by (symmetry; lia). reflexivity.
Qed.

(** * C135 *)
Lemma trial_spec na P limit q : 1 <= limit -> limit < P -> enoughPieces P limit q ->
  forall fuel s, 1 <= s < q -> (Z.to_nat (q - s) <= fuel)%nat ->
  trialLoop fuel na P limit s true = if na <=? q then Some None else Some (Some (q - 1)).
Proof.
  intros L LP [E M]. induction fuel as [|f IH]; intros s Hs Hf; [lia|]. cbn [trialLoop negb].
  destruct (na <=? s + 1) eqn:A; [replace (na <=? q) with true by (symmetry; lia); reflexivity|].
  destruct (limit * (s + 1) <? P) eqn:B.
  - apply IH; [|lia]. split; [lia|]. destruct (Z_lt_le_dec (s + 1) q); [lia|]. nia.
  - assert (q = s + 1) as ->. { destruct (Z_lt_le_dec (s + 1) q) as [Q|Q]; [|lia]. specialize (M (s + 1)). lia. }
    rewrite A. destruct f; cbn [trialLoop negb]; reflexivity.
Qed.

Lemma required_spec P limit q cells : 1 <= limit -> limit < cells -> limit < P -> enoughPieces P limit q -> 2 <= q ->
  forall fuel ns, (Z.to_nat q <= fuel)%nat ->
  requiredCuts fuel ns P limit cells =
    if existsb (fun na => na <=? q) ns then Some None else Some (Some (map (fun _ => q - 1) ns)).
Proof.
  intros L LC LP E Q fuel ns Hf. induction ns as [|na r IH]; [reflexivity|]. cbn [requiredCuts existsb map].
  replace (limit <? cells) with true by (symmetry; lia).
  rewrite (trial_spec na P limit q L LP E fuel 1) by lia.
  destruct (na <=? q); [reflexivity|]. rewrite IH. cbn [orb]. destruct (existsb _ r); reflexivity.
Qed.

Lemma indexOfMin3 x y z : indexOfMin [x; y; z] = if (x <=? y) && (x <=? z) then 0%nat else if y <=? z then 1%nat else 2%nat.
Proof.
  unfold indexOfMin, argmin. cbn [hd tl argBest].
  destruct (y <? x) eqn:A, (z <? x) eqn:B, (z <? y) eqn:C; cbn [fst];
  destruct (x <=? y) eqn:D, (x <=? z) eqn:F, (y <=? z) eqn:G; cbn [andb]; try reflexivity; lia.
Qed.

(** Automatic cutting of the largest block [b]: the number of pieces [q] is the smallest number for
    which the points, divided by it, fit the limit; the cut is refused when some axis - any of the three -
    has no more points than that; otherwise [q - 1] cuts are made, and when there are at least two, along
    an axis for which the propagation meets the fewest blocks. *)
Theorem C135_decision : forall mb st limit b q, wfGrid mb -> closed mb ->
  analyze mb = Some st -> blk mb (maxNblki st) b -> maxNx st = gshape b -> maxCells st = cellCount b ->
  (forall a, 2 <= points b a) -> 1 <= limit < maxCells st ->
  enoughPieces (points b I * points b J * points b S_Topology.K) limit q ->
  2 <= q /\
  forall fuel, (length mb <= fuel)%nat -> (Z.to_nat q <= fuel)%nat ->
  ((exists a, points b a <= q) -> decide fuel mb st limit = Some None) /\
  ((forall a, q < points b a) -> exists a, decide fuel mb st limit = Some (Some (maxNblki st, letter a, q - 1)) /\
     (3 <= q -> forall a', exists p p', cutPath fuel mb (maxNblki st) (letter a) = Some (Some p) /\
        cutPath fuel mb (maxNblki st) (letter a') = Some (Some p') /\ (length p <= length p')%nat)).
Proof.
  intros mb st limit b q W C EA Hb NX MC P2 LM EP.
  assert (PI := P2 I). assert (PJ := P2 J). assert (PK := P2 S_Topology.K).
  set (P := points b I * points b J * points b S_Topology.K) in *.
  assert (LP : limit < P).
  { unfold cellCount in MC. assert (maxCells st <= P); [|lia]. rewrite MC. unfold P. 
    assert (0 <= (points b I - 1) * (points b J - 1)) by nia.
    apply Z.mul_le_mono_nonneg; nia. }
  assert (Q2 : 2 <= q). { destruct EP as [E1 _]. destruct (Z_lt_le_dec q 2); [|lia]. nia. }
  split; [exact Q2|]. intros fuel F1 F2. unfold decide. rewrite NX.
  unfold P, points in *. destruct (gshape b) as [[x y] z]. fold P. 
  rewrite (getBlk_blk _ _ _ W Hb).
  assert (Egn : gn b = maxNblki st) by (exact (proj1 (W _ _ Hb))). rewrite Egn.
  rewrite (required_spec _ limit q _ (proj1 LM) (proj2 LM) LP EP Q2 fuel _ F2). cbn [existsb map].
  split.
  - intros [a Ha]. replace ((x <=? q) || ((y <=? q) || ((z <=? q) || false))) with true; [reflexivity|].
    symmetry. destruct a; apply Z.leb_le in Ha; rewrite Ha; rewrite ?orb_true_r; reflexivity.
  - intros Ha. assert (HI := Ha I). assert (HJ := Ha J). assert (HK := Ha S_Topology.K). cbn in HI, HJ, HK.
    replace (x <=? q) with false by (symmetry; lia). replace (y <=? q) with false by (symmetry; lia).
    replace (z <=? q) with false by (symmetry; lia). cbn [orb].
    destruct (C77_cut_path mb _ b I W C Hb) as (si & Ei & _). destruct (C77_cut_path mb _ b J W C Hb) as (sj & Ej & _).
    destruct (C77_cut_path mb _ b S_Topology.K W C Hb) as (sk & Ek & _).
    specialize (Ei fuel F1). specialize (Ej fuel F1). specialize (Ek fuel F1).
    assert (Pth : forall a, cutPath fuel mb (maxNblki st) (letter a) =
      Some (Some (map (fun x : cutState => let '(B, c, r) := x in (B, letter c, r)) (match a with I => si | J => sj | S_Topology.K => sk end)))).
    { intros []; assumption. }
    cbn [letter] in Ei, Ej, Ek. rewrite Ei, Ej, Ek. rewrite !map_length. cbn [combine map fst snd].
    rewrite indexOfMin3. cbn [nth_error].
    set (li := Z.of_nat (length si)). set (lj := Z.of_nat (length sj)). set (lk := Z.of_nat (length sk)).
    assert (Choice : exists a, nth_error ["i"; "j"; "k"]%string
      (if (li * (q - 1 - 1) <=? lj * (q - 1 - 1)) && (li * (q - 1 - 1) <=? lk * (q - 1 - 1)) then 0%nat
       else if lj * (q - 1 - 1) <=? lk * (q - 1 - 1) then 1%nat else 2%nat) = Some (letter a) /\
      (3 <= q -> forall a', (length (match a with I => si | J => sj | S_Topology.K => sk end) <=
         length (match a' with I => si | J => sj | S_Topology.K => sk end))%nat)).
    { destruct (li * (q - 1 - 1) <=? lj * (q - 1 - 1)) eqn:A1, (li * (q - 1 - 1) <=? lk * (q - 1 - 1)) eqn:A2,
        (lj * (q - 1 - 1) <=? lk * (q - 1 - 1)) eqn:A3; cbn [andb];
      first [ (exists I; split; [reflexivity|]; intros Q []; unfold li, lj, lk in *; nia)
            | (exists J; split; [reflexivity|]; intros Q []; unfold li, lj, lk in *; nia)
            | (exists S_Topology.K; split; [reflexivity|]; intros Q []; unfold li, lj, lk in *; nia) ]. }
    destruct Choice as (a & Ea & Sh). rewrite Ea. exists a. split; [reflexivity|].
    intros Q a'. rewrite !Pth. eexists _, _. split; [reflexivity|]. split; [reflexivity|].
    rewrite !map_length. now apply Sh.
Qed.

(** With a single cut ([q = 2]) every axis is given the same cost, zero, so the first axis is taken
    whatever the number of blocks the propagation meets. *)
Theorem C135_single_cut : forall mb st limit b, wfGrid mb -> closed mb ->
  analyze mb = Some st -> blk mb (maxNblki st) b -> maxNx st = gshape b -> maxCells st = cellCount b ->
  (forall a, 2 < points b a) -> 1 <= limit < maxCells st ->
  enoughPieces (points b I * points b J * points b S_Topology.K) limit 2 ->
  forall fuel, (length mb <= fuel)%nat -> (2 <= fuel)%nat ->
  decide fuel mb st limit = Some (Some (maxNblki st, "i"%string, 1)).
Proof.
  intros mb st limit b W C EA Hb NX MC P2 LM EP fuel F1 F2.
  assert (PI := P2 I). assert (PJ := P2 J). assert (PK := P2 S_Topology.K).
  set (P := points b I * points b J * points b S_Topology.K) in *.
  assert (LP : limit < P) by (destruct EP as [_ E2]; specialize (E2 1); lia).
  unfold decide. rewrite NX. unfold P, points in *. destruct (gshape b) as [[x y] z]. fold P.
  rewrite (getBlk_blk _ _ _ W Hb).
  assert (Egn : gn b = maxNblki st) by (exact (proj1 (W _ _ Hb))). rewrite Egn.
  rewrite (required_spec _ limit 2 _ (proj1 LM) (proj2 LM) LP EP ltac:(lia) fuel _ ltac:(lia)). cbn [existsb map].
  replace (x <=? 2) with false by (symmetry; lia). replace (y <=? 2) with false by (symmetry; lia).
  replace (z <=? 2) with false by (symmetry; lia). cbn [orb].
  destruct (C77_cut_path mb _ b I W C Hb) as (si & Ei & _). destruct (C77_cut_path mb _ b J W C Hb) as (sj & Ej & _).
  destruct (C77_cut_path mb _ b S_Topology.K W C Hb) as (sk & Ek & _).
  specialize (Ei fuel F1). specialize (Ej fuel F1). specialize (Ek fuel F1).
  cbn [letter] in Ei, Ej, Ek. rewrite Ei, Ej, Ek. cbn [combine map fst snd].
  rewrite indexOfMin3. replace (2 - 1 - 1) with 0 by lia. rewrite !Z.mul_0_r. reflexivity.
Qed.

(** Two blocks of 5 x 5 x 5 points, side by side in j: cutting block 0 along i (or k) cuts block 1 as
    well, cutting it along j does not. *)
Definition stackMb : list gblock :=
  let mk n fs := mkGB n (5, 5, 5) (fun _ _ _ => 0%R) (fun _ _ _ => 0%R) (fun _ _ _ => 0%R)
                   (map (fun k => exFace k (fs k)) [1;2;3;4;5;6]) in
  [ mk 0 (fun k => if k =? 4 then Some (1, "123"%string) else None);
    mk 1 (fun k => if k =? 3 then Some (0, "123"%string) else None) ].

Lemma stack_good : wfGrid stackMb /\ closed stackMb.
Proof.
  split.
  - intros n b H. pose proof (blk_lt _ _ _ H) as L. cbn in L. destruct H as [_ B].
    assert (F : n = 0 \/ n = 1) by lia. destruct F as [->| ->]; cbn in B; injection B as <-; split; reflexivity.
  - intros A k g B (b & Hb & K & E) N. pose proof (blk_lt _ _ _ Hb) as L. cbn in L. destruct Hb as [_ Hb].
    assert (D : k = 1 \/ k = 2 \/ k = 3 \/ k = 4 \/ k = 5 \/ k = 6) by lia.
    assert (F : A = 0 \/ A = 1) by lia.
    destruct F as [->| ->]; cbn in Hb; injection Hb as <-;
    destruct D as [->|[->|[->|[->|[->| ->]]]]]; cbn in E; injection E as <-; cbn in N; try discriminate N; injection N as <-;
    (split; [apply blk_ex; cbn; lia|]); exists sameO; (split; [apply turn_legal|reflexivity]).
Qed.

Lemma stack_stats : exists st, analyze stackMb = Some st /\ maxNblki st = 0 /\ maxNx st = (5, 5, 5) /\ maxCells st = 64.
Proof. eexists. split; [reflexivity|]. repeat split; reflexivity. Qed.

(** What fails: the announced choice ("the cut axis that produces the minimum number of new blocks") when
    one cut is enough - here the i axis is chosen, which makes two new blocks, though the j axis would
    make one. *)
Theorem C135_fewest_blocks_refuted : exists mb st limit, wfGrid mb /\ closed mb /\ analyze mb = Some st /\
  exists fuel a a' p p', decide fuel mb st limit = Some (Some (maxNblki st, letter a, 1)) /\
    cutPath fuel mb (maxNblki st) (letter a) = Some (Some p) /\
    cutPath fuel mb (maxNblki st) (letter a') = Some (Some p') /\ (length p' < length p)%nat.
Proof.
  destruct stack_stats as (st & E & N & X & M). destruct stack_good as [W C].
  exists stackMb, st, 63. split; [exact W|]. split; [exact C|]. split; [exact E|].
  exists 2%nat, I, J, [(0, "i"%string, false); (1, "i"%string, false)], [(0, "j"%string, false)].
  destruct (blk_ex stackMb 0) as [b Hb]; [cbn; lia|].
  assert (Sh : gshape b = (5, 5, 5)) by (destruct Hb as [_ Hb]; cbn in Hb; injection Hb as <-; reflexivity).
  rewrite <- N in Hb.
  assert (Pt : forall a, points b a = 5) by (intros []; unfold points; rewrite Sh; reflexivity).
  split; [|rewrite N; split; [reflexivity|]; split; [reflexivity|cbn; lia]].
  apply (C135_single_cut stackMb st 63 b W C E Hb).
  - congruence.
  - unfold cellCount. rewrite !Pt, M. reflexivity.
  - intros a. rewrite Pt. lia.
  - rewrite M. lia.
  - rewrite !Pt. split; [lia|]. intros q' H. lia.
  - cbn. lia.
  - lia.
Qed.

(** And a grid one cell thick in some direction - the usual two-dimensional case - is always refused,
    however many cells there are along the other axes. *)
Theorem C135_two_dimensional_refuted : forall mb st limit b a, wfGrid mb -> closed mb ->
  analyze mb = Some st -> blk mb (maxNblki st) b -> maxNx st = gshape b -> maxCells st = cellCount b ->
  (forall c, 2 <= points b c) -> points b a = 2 -> 1 <= limit < maxCells st ->
  exists fuel0, forall fuel, (fuel0 <= fuel)%nat -> decide fuel mb st limit = Some None.
Proof.
  intros mb st limit b a W C EA Hb NX MC P2 Pa LM.
  set (P := points b I * points b J * points b S_Topology.K).
  set (q := (P + limit - 1) / limit).
  assert (EP : enoughPieces P limit q).
  { assert (D := Z.div_mod (P + limit - 1) limit ltac:(lia)). assert (D2 := Z.mod_pos_bound (P + limit - 1) limit ltac:(lia)).
    fold q in D. split; [lia|]. intros q' Hq. nia. }
  destruct (C135_decision mb st limit b q W C EA Hb NX MC P2 LM EP) as [Q2 D].
  exists (Nat.max (length mb) (Z.to_nat q)). intros fuel Hf. apply (D fuel); [lia|lia|]. exists a. lia.
Qed.

(** Non-vacuity: the hypotheses of C134 are met by [stackMb] listed backwards, those of C135 by
    [stackMb] with a limit of 20 cells, where 7 pieces are needed and refused, and of 32, where four
    pieces are made along j. *)
Example C134_ex : numbered (rev stackMb) /\ forall b, In b (rev stackMb) -> 0 < cellCount b.
Proof.
  split; [unfold numbered; cbn; apply perm_swap|].
  intros b [<-|[<-|[]]]; cbn; lia.
Qed.
Example C135_ex : exists st, analyze stackMb = Some st /\
  decide 9 stackMb st 32 = Some (Some (0, "j"%string, 3)) /\ decide 9 stackMb st 20 = Some None.
Proof. destruct stack_stats as (st & E & _). exists st. split; [exact E|]. apply (f_equal (fun o => match o with Some s => (decide 9 stackMb s 32, decide 9 stackMb s 20) | None => (None, None) end)) in E.
  cbv in E. injection E. auto. Qed.

Print Assumptions C134_statistics.
Print Assumptions C134_balance.
Print Assumptions C134_refuses.
Print Assumptions C135_decision.
Print Assumptions C135_fewest_blocks_refuted.
Print Assumptions C135_two_dimensional_refuted.
