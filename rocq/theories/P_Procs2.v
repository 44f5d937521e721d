(** C63, C64, C97: accepted distributions and the load balancer. *)
From Coq Require Import ZArith NArith String Ascii List Bool Lia Permutation Sorted.
From Verif Require Import M_Procs S_Procs L_Procs P_Procs.
Import ListNotations.
Open Scope Z_scope.

Lemma fold_len {A} (gs : list (list A)) : forall n, fold_left Nat.add (map (@List.length A) gs) n = (n + List.length (concat gs))%nat.
Proof. induction gs as [|g gs IH]; intros n; cbn [map fold_left concat]; [cbn; lia | ]. rewrite IH, app_length. lia. Qed.
Lemma fold_max r : forall x, let m := fold_left Z.max r x in x <= m /\ (forall y, In y r -> y <= m) /\ (m = x \/ In m r).
Proof.
  induction r as [|y r IH]; intros x; cbn [fold_left]; [cbn; split; [lia | split; [intros ? [] | auto]] | ]. destruct (IH (Z.max x y)) as (A & B & C). cbv zeta in *. split; [lia | ]. split.
  - intros z [<- | I]; [lia | auto].
  - destruct C as [C | C]; [ | right; right; exact C]. destruct (Z.max_spec x y) as [[_ E] | [_ E]]; [right; left | left]; congruence.
Qed.
Lemma sumMax_spec gs : forall s m s' m', sumMax gs s m = Some (s', m') ->
  s' = s + Z.of_nat (List.length (concat gs)) /\ m <= m' /\ (forall y, In y (concat gs) -> y <= m') /\ (m' = m \/ In m' (concat gs)) /\ ~ In [] gs.
Proof.
  induction gs as [|g gs IH]; intros s m s' m'; cbn [sumMax concat].
  - intros H. assert (s = s' /\ m = m') as [<- <-] by (split; congruence). cbn. repeat split; auto; try lia; try (intros ? []). 
  - destruct g as [|x g]; cbn [pyMax]; [discriminate | ]. intros H. destruct (IH _ _ _ _ H) as (A & B & C & D & E). destruct (fold_max g x) as (F1 & F2 & F3). cbv zeta in *.
    set (mx := fold_left Z.max g x) in *. split; [rewrite app_length; lia | ]. split; [lia | ]. split.
    + intros y I. apply in_app_or in I. destruct I as [[<- | I] | I]; [lia | specialize (F2 y I); lia | auto].
    + split; [ | intros [H0 | H0]; [discriminate | auto]]. destruct D as [D | D]; [ | right; apply in_or_app; auto]. destruct (Z.max_spec m mx) as [[_ X] | [_ X]]; rewrite X in D; [right | left; exact D].
      apply in_or_app. left. rewrite D. destruct F3 as [-> | F3]; [left; reflexivity | right; exact F3].
Qed.
Lemma sumMax_total gs : forall s m, ~ In [] gs -> exists s' m', sumMax gs s m = Some (s', m').
Proof.
  induction gs as [|g gs IH]; intros s m N; cbn [sumMax]; [eauto | ]. destruct g as [|x g]; [elim N; left; reflexivity | ]. cbn [pyMax]. apply IH. intros I. apply N. right. exact I.
Qed.
(** what start-up checks, and all it checks *)
Lemma bootstrap_accepts file size total groups : bootstrap file size total = Accepted groups <->
  (match file with None => Some (map (fun i => [Z.of_nat i]) (seq 0 (Z.to_nat size))) | Some t => readBlocksForProcs true t end) = Some groups /\
  Z.of_nat (List.length groups) = size /\ total = Z.of_nat (List.length (concat groups)) /\ ~ In [] groups /\
  (forall y, In y (concat groups) -> y <= total - 1) /\ (total = 1 \/ In (total - 1) (concat groups)) /\ 1 <= total.
Proof.
  unfold bootstrap. destruct (match file with None => _ | Some t => _ end) as [gs|]; [ | split; [discriminate | intros [H _]; discriminate]].
  split.
  - destruct (Z.eqb_spec (Z.of_nat (List.length gs)) size) as [E1 | ]; cbn [negb]; [ | discriminate]. destruct (sumMax gs 0 0) as [[s m]|] eqn:E2; [ | discriminate].
    destruct (Z.eqb_spec (s - 1) m) as [E3 | ]; cbn [negb]; [ | discriminate]. rewrite fold_len. cbn [Nat.add].
    destruct (Z.eqb_spec total (Z.of_nat (List.length (concat gs)))) as [E4 | ]; cbn [negb]; [ | discriminate]. intros H. assert (gs = groups) as <- by congruence.
    destruct (sumMax_spec _ _ _ _ _ E2) as (A & B & C & D & E). split; [reflexivity | ]. split; [exact E1 | ]. split; [exact E4 | ]. split; [exact E | ]. assert (M : m = total - 1) by lia. rewrite M in *.
    split; [exact C | ]. split; [ | lia]. destruct D as [D | D]; [left; lia | right; exact D].
  - intros (H & E1 & E4 & N & C & D & P). assert (gs = groups) as -> by congruence. rewrite E1, Z.eqb_refl. cbn [negb]. destruct (sumMax_total groups 0 0 N) as (s & m & E2). rewrite E2.
    destruct (sumMax_spec _ _ _ _ _ E2) as (A & B & C' & D' & _). assert (M : m = total - 1). { assert (m <= total - 1) by (destruct D' as [-> | D']; [lia | apply C; exact D']). destruct D as [D | D]; [lia | ]. specialize (C' _ D). lia. }
    rewrite M. replace (s - 1) with (total - 1) by lia. rewrite Z.eqb_refl. cbn [negb]. rewrite fold_len. cbn [Nat.add]. rewrite <- E4, Z.eqb_refl. reflexivity.
Qed.
(** partitions *)
Lemma perm_partition groups n : Permutation (concat groups) (map Z.of_nat (seq 0 n)) -> isPartition groups n /\ onlyBlocks groups n.
Proof.
  intros P. split.
  - intros b Hb. assert (C : count_occ Z.eq_dec (concat groups) (Z.of_nat b) = 1%nat).
    { rewrite (Permutation_count_occ Z.eq_dec) in P. rewrite P. apply NoDup_count_occ'; [apply FinFun.Injective_map_NoDup; [intros x y E; lia | apply seq_NoDup] | apply in_map, in_seq; lia]. }
    clear P Hb n. induction groups as [|g gs IH]; [discriminate | ]. cbn [concat] in C. rewrite count_occ_app in C. destruct (count_occ Z.eq_dec g (Z.of_nat b)) as [|[|k]] eqn:E; [ | | lia].
    + destruct (IH C) as (r & A & L & U). exists (S r). split; [exact A | ]. split; [cbn [List.length]; lia | ]. intros [|r'] g' N E'; [injection E' as <-; apply count_occ_not_In in E; exact E | ]. apply (U r'); [congruence | exact E'].
    + assert (C0 : count_occ Z.eq_dec (concat gs) (Z.of_nat b) = 0%nat) by lia. apply count_occ_not_In in C0. exists 0%nat. split; [intros g' E'; injection E' as <-; exact E | ]. split; [cbn [List.length]; lia | ].
      intros [|r'] g' N E'; [congruence | ]. intros I. apply C0, in_concat. exists g'. split; [exact (nth_error_In gs r' E') | exact I].
  - intros g z G I. assert (J : In z (concat groups)) by (apply in_concat; eauto). apply (Permutation_in _ P) in J. apply in_map_iff in J. destruct J as (k & <- & J). apply in_seq in J. lia.
Qed.
Lemma commRank_owner groups : forall nb r g, nth_error groups r = Some g -> In nb g -> (forall r' g', r' <> r -> nth_error groups r' = Some g' -> ~ In nb g') ->
  forall k cur, commRankGo groups nb k cur = Some (k + Z.of_nat r).
Proof.
  induction groups as [|h gs IH]; intros nb r g E I U k cur; [destruct r; discriminate | ]. cbn [commRankGo]. destruct r as [|r].
  - injection E as ->. replace (existsb (Z.eqb nb) g) with true by (symmetry; apply existsb_exists; exists nb; split; [exact I | apply Z.eqb_refl]).
    assert (N : forall k' c, commRankGo gs nb k' c = c).
    { assert (Hn : forall g', In g' gs -> ~ In nb g') by (intros g' G; destruct (In_nth_error _ _ G) as [r' R]; apply (U (S r')); [discriminate | exact R]). clear - Hn.
      induction gs as [|h gs IH]; intros k' c; [reflexivity | ]. cbn [commRankGo]. replace (existsb (Z.eqb nb) h) with false; [apply IH; intros; apply Hn; right; assumption | ].
      symmetry. apply not_true_iff_false. intros H. apply existsb_exists in H. destruct H as (x & X & E). apply Z.eqb_eq in E. subst x. apply (Hn h (or_introl eq_refl) X). }
    rewrite N. f_equal. lia.
  - rewrite (IH nb r g E I) by (intros r' g' N E'; apply (U (S r')); [congruence | exact E']). f_equal. lia.
Qed.
(** the rank recorded for a neighbour is its owner *)
Theorem C63_neighbour_rank : forall groups n, isPartition groups n -> forall nb old, 0 <= nb < Z.of_nat n -> exists r, commRank groups (Some nb) old = Some r /\ owns groups r nb /\ forall r', owns groups r' nb -> r' = r.
Proof.
  intros groups n P nb old H. destruct (P (Z.to_nat nb) ltac:(lia)) as (r & C & L & U). rewrite Z2Nat.id in * by lia. destruct (nth_error groups r) as [g|] eqn:E; [ | apply nth_error_None in E; lia].
  specialize (C g eq_refl). assert (I : In nb g) by (apply (count_occ_In Z.eq_dec); lia). exists (Z.of_nat r). split; [ | split].
  - cbn [commRank]. rewrite (commRank_owner groups nb r g E I U). reflexivity.
  - split; [lia | ]. exists g. rewrite Nat2Z.id. auto.
  - intros r' (H0 & g' & E' & I'). destruct (Nat.eq_dec (Z.to_nat r') r) as [<- | N]; [lia | ]. elim (U _ _ N E' I').
Qed.
(** * C63 *)
Theorem C63_accepted_not_partition_refuted : exists file groups, bootstrap (Some file) 2 3 = Accepted groups /\ ~ isPartition groups 3 /\ (forall r, ~ owns groups r 1) /\
  commRank groups (Some 1) None = None.
Proof.
  exists (unlines [txt "0, 0, "; txt "2, "]), [[0; 0]; [2]]. split; [reflexivity | ]. assert (O : forall r, ~ owns [[0; 0]; [2]] r 1).
  { intros r (H & g & E & I). destruct (Z.to_nat r) as [|[|[|k]]]; cbn in E; try discriminate; injection E as <-; cbn in I; lia. } split; [ | split; [exact O | reflexivity]].
  intros P. destruct (P 1%nat ltac:(lia)) as (r & A & L & _). apply (O (Z.of_nat r)). split; [lia | ]. rewrite Nat2Z.id. destruct (nth_error _ r) as [g|] eqn:E; [ | apply nth_error_None in E; lia].
  exists g. split; [reflexivity | ]. apply (count_occ_In Z.eq_dec). assert (X := A g eq_refl). change (Z.of_nat 1) with 1 in X. lia.
Qed.
(** the missing checks: no block twice, none negative.  With them, what is accepted is a partition of the blocks conn.yaml declares *)
Theorem C63_partition_partial : forall file size total groups, bootstrap file size total = Accepted groups -> NoDup (concat groups) -> (forall b, In b (concat groups) -> 0 <= b) ->
  isPartition groups (Z.to_nat total) /\ onlyBlocks groups (Z.to_nat total) /\ Z.of_nat (List.length groups) = size /\ forall g, In g groups -> g <> [].
Proof.
  intros file size total groups A ND Pos. apply bootstrap_accepts in A. destruct A as (_ & L & T & N & M & _ & T1).
  assert (P : Permutation (concat groups) (map Z.of_nat (seq 0 (Z.to_nat total)))).
  { apply NoDup_Permutation_bis; [exact ND | rewrite map_length, seq_length; lia | ]. intros y I. specialize (M y I). specialize (Pos y I). apply in_map_iff. exists (Z.to_nat y). split; [lia | apply in_seq; lia]. }
  destruct (perm_partition _ _ P). split; [assumption | ]. split; [assumption | ]. split; [exact L | ]. intros g G ->. exact (N G).
Qed.
(** without a file there is one block per rank, and this is accepted and a partition *)
Theorem C63_no_file : forall size, 1 <= size -> exists groups, bootstrap None size size = Accepted groups /\ isPartition groups (Z.to_nat size) /\ onlyBlocks groups (Z.to_nat size).
Proof.
  intros size H. exists (map (fun i => [Z.of_nat i]) (seq 0 (Z.to_nat size))). assert (C : concat (map (fun i => [Z.of_nat i]) (seq 0 (Z.to_nat size))) = map Z.of_nat (seq 0 (Z.to_nat size))) by (generalize (seq 0 (Z.to_nat size)); induction l as [|a l IH]; cbn; congruence).
  split; [ | apply perm_partition; rewrite C; reflexivity]. apply bootstrap_accepts. rewrite C, !map_length, seq_length. split; [reflexivity | ]. split; [lia | ]. split; [lia | ]. split.
  - intros I. apply in_map_iff in I. destruct I as (x & E & _). discriminate.
  - split; [ | split; [ | lia]]. { intros y I. apply in_map_iff in I. destruct I as (k & <- & I). apply in_seq in I. lia. } right. apply in_map_iff. exists (Z.to_nat (size - 1)). split; [lia | apply in_seq; lia].
Qed.

(** * C64: the load balancer *)
(** its own check is sound: whatever the groups, if it passes they hold every block exactly once *)
Theorem C64_check_sound : forall nblks groups, allBlocksAssigned (map N.of_nat (seq 0 nblks)) groups = true ->
  Permutation (concat groups) (map N.of_nat (seq 0 nblks)) /\ isPartition (map (map Z.of_N) groups) nblks /\ onlyBlocks (map (map Z.of_N) groups) nblks.
Proof.
  intros n groups H. unfold allBlocksAssigned in H. apply andb_true_iff in H. destruct H as [F E]. apply Nat.eqb_eq in E. rewrite fold_len in E. cbn [Nat.add] in E.
  assert (ND : NoDup (map N.of_nat (seq 0 n))) by (apply FinFun.Injective_map_NoDup; [intros x y Q; lia | apply seq_NoDup]).
  assert (P : Permutation (map N.of_nat (seq 0 n)) (concat groups)).
  { apply NoDup_Permutation_bis; [exact ND | lia | ]. intros b I. rewrite forallb_forall in F. specialize (F b I). apply existsb_exists in F. destruct F as (g & G & X). apply existsb_exists in X. destruct X as (y & Y & Q).
    apply N.eqb_eq in Q. subst y. apply in_concat. eauto. }
  split; [symmetry; exact P | ]. apply perm_partition. rewrite <- concat_map. apply (Permutation_map Z.of_N) in P. rewrite <- P, map_map. replace (map (fun x => Z.of_N (N.of_nat x)) (seq 0 n)) with (map Z.of_nat (seq 0 n)) by (apply map_ext; intros; lia). reflexivity.
Qed.

(** the three ways of building the groups *)
Definition blocksIn (st : list (list N * Z)) : list N := concat (map fst st).
Lemma minProcs_blocks mx lim l : forall cur size, blocksIn (minProcsGo mx lim l cur size) = cur ++ map snd l.
Proof.
  induction l as [|[s b] l IH]; intros cur size; cbn [minProcsGo map]; [unfold blocksIn; cbn; reflexivity | ]. cbn [snd]. destruct cur as [|c cur]; [rewrite IH; reflexivity | ].
  destruct ((mx <=? size + s) || atLimit lim (List.length (c :: cur)))%bool.
  - unfold blocksIn in *. cbn [map concat fst]. rewrite IH. reflexivity.
  - rewrite IH, <- app_assoc. reflexivity.
Qed.
Lemma minProcs_nonempty mx lim l : forall cur size, cur <> [] \/ l <> [] -> forall g z, In (g, z) (minProcsGo mx lim l cur size) -> g <> [].
Proof.
  induction l as [|[s b] l IH]; intros cur size H g z; cbn [minProcsGo].
  - intros [E | []]. injection E as <- _. destruct H; congruence.
  - destruct cur as [|c cur]; [apply IH; left; discriminate | ]. destruct (_ || _)%bool.
    + intros [E | I]; [injection E as <- _; discriminate | revert I; apply IH; left; discriminate].
    + apply IH. left. destruct cur; discriminate.
Qed.
Lemma load_app c a b : load c (a ++ b) = load c a + load c b.
Proof. unfold load. rewrite map_app, fold_right_app. induction (map c a) as [|x l IH]; cbn [fold_right]; lia. Qed.
Lemma load_one c b : load c [b] = c b. Proof. unfold load. cbn. lia. Qed.
Definition sizesOf (cells : N -> Z) (l : list (Z * N)) : Prop := forall s b, In (s, b) l -> s = cells b.
Lemma minProcs_load cells mx lim l : sizesOf cells l -> (forall s b, In (s, b) l -> s <= mx) -> forall cur size, size = load cells cur -> (cur <> [] -> size <= mx) ->
  (cur = [] -> l <> []) -> forall g z, In (g, z) (minProcsGo mx lim l cur size) -> z = load cells g /\ z <= mx.
Proof.
  induction l as [|[s b] l IH]; intros S M cur size E L N g z; cbn [minProcsGo].
  - intros [Q | []]. injection Q as <- <-. split; [exact E | apply L]. intros C. apply N; [exact C | reflexivity].
  - assert (Sb := S s b (or_introl eq_refl)). assert (Mb := M s b (or_introl eq_refl)).
    assert (S' : sizesOf cells l) by (intros x y I; apply S; right; exact I). assert (M' : forall x y, In (x, y) l -> x <= mx) by (intros x y I; apply (M x y); right; exact I).
    destruct cur as [|c cur].
    + apply IH; auto; [rewrite load_one; cbn in E; lia | cbn in E; lia | discriminate].
    + destruct (Z.leb_spec mx (size + s)); cbn [orb].
      * intros [Q | I]; [injection Q as <- <-; split; [exact E | apply L; discriminate] | ]. revert I. apply IH; auto; [rewrite load_one; exact Sb | discriminate].
      * destruct (atLimit lim _).
        -- intros [Q | I]; [injection Q as <- <-; split; [exact E | apply L; discriminate] | ]. revert I. apply IH; auto; [rewrite load_one; exact Sb | discriminate].
        -- apply IH; auto; [rewrite load_app, load_one; lia | lia | destruct cur; discriminate].
Qed.
Lemma minProcs_limit mx n l : (1 <= n)%nat -> forall cur size, (List.length cur <= n)%nat -> forall g z, In (g, z) (minProcsGo mx (Some n) l cur size) -> (List.length g <= n)%nat.
Proof.
  intros Hn. induction l as [|[s b] l IH]; intros cur size L g z; cbn [minProcsGo].
  - intros [Q | []]. injection Q as <- _. exact L.
  - destruct cur as [|c cur]; [apply IH; cbn; lia | ]. cbn [atLimit]. destruct (Nat.eqb_spec (List.length (c :: cur)) n) as [E | E].
    + rewrite orb_true_r. intros [Q | I]; [injection Q as <- _; exact L | revert I; apply IH; cbn; lia].
    + destruct (mx <=? size + s); cbn [orb]; [intros [Q | I]; [injection Q as <- _; exact L | revert I; apply IH; cbn; lia] | ]. apply IH. rewrite app_length. cbn [List.length] in *. lia.
Qed.
(** smallest blocks first *)
Lemma fillSmall_spec cells mx lim rem : sizesOf cells rem -> forall cur size cur' size' rem', fillSmall mx lim rem cur size = (cur', size', rem') -> size = load cells cur -> size <= mx ->
  Permutation (cur' ++ map snd rem') (cur ++ map snd rem) /\ (exists x, cur' = cur ++ x) /\ (List.length rem' <= List.length rem)%nat /\ (forall b, In b rem' -> In b rem) /\ size' = load cells cur' /\ size' <= mx /\
  (forall n, lim = Some n -> (List.length cur <= n)%nat -> (List.length cur' <= n)%nat).
Proof.
  assert (Stop : forall (rem : list (Z * N)) cur size cur' size' (rem' : list (Z * N)), (cur, size, rem) = (cur', size', rem') -> size = load cells cur -> size <= mx ->
    Permutation (cur' ++ map snd rem') (cur ++ map snd rem) /\ (exists x, cur' = cur ++ x) /\ (List.length rem' <= List.length rem)%nat /\ (forall b, In b rem' -> In b rem) /\ size' = load cells cur' /\ size' <= mx /\
    (forall n, lim = Some n -> (List.length cur <= n)%nat -> (List.length cur' <= n)%nat)).
  { intros rem0 cur size cur' size' rem' H E L. assert (cur = cur' /\ size = size' /\ rem0 = rem') as (-> & -> & ->) by (repeat split; congruence).
    split; [reflexivity | ]. split; [exists []; rewrite app_nil_r; reflexivity | ]. repeat split; auto. }
  induction rem as [|[s b] [|y rem] IH]; intros S cur size cur' size' rem' H E L; cbn [fillSmall] in H.
  - apply (Stop _ _ _ _ _ _ H E L).
  - apply (Stop _ _ _ _ _ _ H E L).
  - destruct (size <=? mx); [ | apply (Stop _ _ _ _ _ _ H E L)]. destruct (Z.ltb_spec mx (size + s)) as [Q | Q]; cbn [orb] in H; [apply (Stop _ _ _ _ _ _ H E L) | ].
    destruct (atLimit lim (List.length cur)) eqn:A; [apply (Stop _ _ _ _ _ _ H E L) | ].
    assert (Sb := S s b (or_introl eq_refl)). destruct (IH ltac:(intros u v I; apply S; right; exact I) _ _ _ _ _ H ltac:(rewrite load_app, load_one; lia) ltac:(lia)) as (P & (x & X) & Ln & In' & Z1 & Z2 & Lim).
    split; [rewrite P, <- app_assoc; reflexivity | ]. split; [exists (b :: x); rewrite X, <- app_assoc; reflexivity | ]. split; [cbn [List.length] in *; lia | ]. split; [intros z I; right; apply In'; exact I | ]. split; [exact Z1 | ]. split; [exact Z2 | ].
    intros n Hn Hc. apply (Lim n Hn). subst lim. cbn [atLimit] in A. apply Nat.eqb_neq in A. rewrite app_length. cbn [List.length]. lia.
Qed.
Lemma minBlks_spec cells mx lim fuel : forall rem, (List.length rem <= fuel)%nat -> sizesOf cells rem -> (forall s b, In (s, b) rem -> s <= mx) ->
  Permutation (blocksIn (minBlksGo fuel mx lim rem)) (map snd rem) /\ (forall g z, In (g, z) (minBlksGo fuel mx lim rem) -> g <> [] /\ z = load cells g /\ z <= mx /\ forall n, lim = Some n -> (1 <= n)%nat -> (List.length g <= n)%nat).
Proof.
  induction fuel as [|f IH]; intros rem Hf S M; cbn [minBlksGo].
  - destruct rem; [ | cbn in Hf; lia]. split; [reflexivity | intros g z []].
  - destruct rem as [|x xs]; [split; [reflexivity | intros g z []] | ]. assert (NE : x :: xs <> []) by discriminate. assert (AR := app_removelast_last x NE).
    set (rem := x :: xs) in *. set (rl := removelast rem) in *. set (big := last rem x) in *. cbv zeta. assert (Ib : In big rem) by (rewrite AR; apply in_or_app; right; left; reflexivity).
    assert (Sr : sizesOf cells rl) by (intros s b I; apply S; rewrite AR; apply in_or_app; left; exact I). assert (Lr : List.length rem = (List.length rl + 1)%nat) by (rewrite AR at 1; rewrite app_length; reflexivity).
    destruct (fillSmall mx lim rl [snd big] (fst big)) as [[cur size] r] eqn:F. assert (Sb : fst big = cells (snd big)) by (apply S; destruct big; exact Ib). assert (Mb : fst big <= mx) by (apply (M _ (snd big)); destruct big; exact Ib).
    destruct (fillSmall_spec cells mx lim rl Sr _ _ _ _ _ F) as (P & (y & Y) & L & I & Z1 & Z2 & Lim); [rewrite load_one; exact Sb | exact Mb | ].
    destruct (IH r) as [P2 G]; [lia | intros s b J; apply Sr, I, J | intros s b J; apply (M s b); rewrite AR; apply in_or_app; left; apply I, J | ]. split.
    + unfold blocksIn in *. cbn [map concat fst]. rewrite P2, P, AR, map_app. cbn [map]. apply Permutation_app_comm.
    + intros g z [Q | J]; [ | apply G; exact J]. assert (g = cur /\ z = size) as [-> ->] by (split; congruence). split; [rewrite Y; discriminate | ]. split; [exact Z1 | ]. split; [exact Z2 | ]. intros n Hn H1. apply (Lim n Hn). cbn; lia.
Qed.
(** a given number of processors *)
Definition addFrom (k i : nat) (b : Z * N) (st : list (list N * Z)) : list (list N * Z) :=
  map (fun '(j, (g, load)) => if Nat.eqb i j then (g ++ [snd b], load + fst b) else (g, load)) (combine (seq k (List.length st)) st).
Lemma addFrom_spec i b st : forall k, (k <= i < k + List.length st)%nat ->
  Permutation (blocksIn (addFrom k i b st)) (snd b :: blocksIn st).
Proof.
  induction st as [|[g z] st IH]; intros k H; [cbn in H; lia | ]. unfold addFrom in *. cbn [List.length seq combine map]. unfold blocksIn in *. destruct (Nat.eqb_spec i k) as [-> | N].
  - cbn [map concat fst]. assert (E : forall st' k', (k < k')%nat -> map fst (map (fun '(j, (g, load)) => if Nat.eqb k j then (g ++ [snd b], load + fst b) else (g, load)) (combine (seq k' (List.length st')) st')) = map fst st').
    { clear. induction st' as [|[g z] st' IH]; intros k' L; [reflexivity | ]. cbn [List.length seq combine map fst]. destruct (Nat.eqb_spec k k'); [lia | ]. cbn [fst]. rewrite IH by lia. reflexivity. }
    rewrite E by lia. rewrite <- app_assoc. cbn [app]. symmetry. apply Permutation_middle.
  - cbn [map concat fst]. rewrite IH by (cbn [List.length] in H; lia). symmetry. apply Permutation_middle.
Qed.
Lemma addFrom_in i b st : forall k g z, In (g, z) (addFrom k i b st) -> In (g, z) st \/ exists g0 z0, In (g0, z0) st /\ g = g0 ++ [snd b] /\ z = z0 + fst b.
Proof.
  induction st as [|[g0 z0] st IH]; intros k g z; [intros [] | ]. unfold addFrom in *. cbn [List.length seq combine map]. intros [E | I].
  - destruct (Nat.eqb i k); injection E as <- <-; [right; exists g0, z0; repeat split; left; reflexivity | left; left; reflexivity].
  - destruct (IH _ _ _ I) as [J | (g1 & z1 & J & A)]; [left; right; exact J | right; exists g1, z1; split; [right; exact J | exact A]].
Qed.
Lemma addFrom_length k i b st : List.length (addFrom k i b st) = List.length st.
Proof. unfold addFrom. rewrite map_length, combine_length, seq_length. lia. Qed.
Lemma numProcs_spec cells light l : (forall st, st <> [] -> (light st < List.length st)%nat) -> sizesOf cells l -> forall st, (st <> [] \/ l = []) -> (forall g z, In (g, z) st -> g <> [] /\ z = load cells g) ->
  let r := fold_left (fun st b => addTo (light st) b st) l st in
  Permutation (blocksIn r) (blocksIn st ++ map snd l) /\ List.length r = List.length st /\ forall g z, In (g, z) r -> g <> [] /\ z = load cells g.
Proof.
  intros R. induction l as [|[s b] l IH]; intros S st N G; cbn [fold_left map].
  - cbv zeta. split; [rewrite app_nil_r; reflexivity | ]. auto.
  - destruct N as [N | N]; [ | discriminate]. cbv zeta. change (addTo (light st) (s, b) st) with (addFrom 0 (light st) (s, b) st).
    destruct (IH ltac:(intros u v I; apply S; right; exact I) (addFrom 0 (light st) (s, b) st)) as (P & L & Q).
    + left. intros H. apply (f_equal (@List.length _)) in H. rewrite addFrom_length in H. destruct st; [congruence | cbn in H; lia].
    + intros g z I. apply addFrom_in in I. destruct I as [I | (g0 & z0 & I & -> & ->)]; [apply G; exact I | ]. destruct (G _ _ I) as [_ ->]. split; [destruct g0; discriminate | ].
      cbn [fst snd]. rewrite load_app, load_one, (S s b (or_introl eq_refl)). reflexivity.
    + split; [ | split; [rewrite L; apply addFrom_length | exact Q]]. cbv zeta in P. rewrite P, (addFrom_spec (light st) (s, b) st 0) by (specialize (R st N); lia). cbn [snd app]. apply Permutation_middle.
Qed.
(** a mode that was asked for: -numProcs at least 1, whose argmin is an index of the list it is taken over *)
Definition goodMode (m : mode) : Prop := match m with NoMode => False | NumProcs n light => (1 <= n)%nat /\ forall st, st <> [] -> (light st < List.length st)%nat | _ => True end.
(** the blocks of a grid, in an order argsort may return: by number of cells *)
Definition isSortedBlocks (cells : N -> Z) (nblks : nat) (sorted : list (Z * N)) : Prop :=
  Permutation (map snd sorted) (map N.of_nat (seq 0 nblks)) /\ (forall s b, In (s, b) sorted -> s = cells b) /\ StronglySorted Z.le (map fst sorted).
Lemma maxSize_ge sorted s b : In (s, b) sorted -> s <= maxSizeOf sorted.
Proof.
  destruct sorted as [|[s0 b0] r]; [intros [] | ]. cbn [maxSizeOf fst]. destruct (fold_max (map fst r) s0) as (A & B & _). cbv zeta in *. intros [E | I]; [injection E as -> _; exact A | apply B, (in_map fst _ _ I)].
Qed.
Lemma maxSize_in sorted : sorted <> [] -> exists b, In (maxSizeOf sorted, b) sorted.
Proof.
  destruct sorted as [|[s0 b0] r]; [congruence | ]. intros _. cbn [maxSizeOf fst]. destruct (fold_max (map fst r) s0) as (_ & _ & [C | C]); cbv zeta in *; [exists b0; left; congruence | ].
  apply in_map_iff in C. destruct C as ([s b] & E & I). cbn [fst] in E. exists b. right. rewrite <- E. exact I.
Qed.
Lemma balance_spec cells nblks sorted m limit : goodMode m -> isSortedBlocks cells nblks sorted -> (1 <= nblks)%nat ->
  Permutation (blocksIn (balance m limit sorted)) (map N.of_nat (seq 0 nblks)) /\ (forall g z, In (g, z) (balance m limit sorted) -> g <> [] /\ z = load cells g).
Proof.
  intros GM (P & S & _) Hn. assert (NE : sorted <> []) by (intros ->; apply Permutation_length in P; rewrite !map_length, seq_length in P; cbn in P; lia). assert (MX := maxSize_ge sorted).
  destruct m as [ | | n light | ]; cbn [balance goodMode] in *; [ | | | contradiction].
  - rewrite minProcs_blocks. cbn [app]. split; [exact P | ]. intros g z I. split; [apply (minProcs_nonempty _ _ _ [] 0 (or_intror NE) g z I) | ].
    destruct (minProcs_load cells (maxSizeOf sorted) limit sorted S MX [] 0) with (4 := I); [reflexivity | congruence | auto | assumption].
  - destruct (minBlks_spec cells (maxSizeOf sorted) limit (List.length sorted) sorted (le_n _) S MX) as [A B]. split; [rewrite A; exact P | ]. intros g z I. destruct (B g z I) as (B1 & B2 & _). auto.
  - destruct GM as [G1 G2]. replace (0 <? Z.of_nat n) with true by (symmetry; apply Z.ltb_lt; lia). unfold numProcsGroups. set (st0 := map (fun b => ([snd b], fst b)) (firstn n (rev sorted))).
    assert (FS : firstn n (rev sorted) ++ skipn n (rev sorted) = rev sorted) by apply firstn_skipn.
    assert (E0 : blocksIn st0 = map snd (firstn n (rev sorted))) by (unfold blocksIn, st0; rewrite map_map; generalize (firstn n (rev sorted)); induction l as [|a l IH]; [reflexivity | cbn; f_equal; exact IH]).
    assert (Sv : sizesOf cells (rev sorted)) by (intros s b I; apply S, in_rev, I).
    destruct (numProcs_spec cells light (skipn n (rev sorted)) G2) with (st := st0) as (A & _ & B).
    + intros s b I. apply Sv. rewrite <- FS. apply in_or_app; right; exact I.
    + left. unfold st0. intros H. destruct n; [lia | ]. destruct (rev sorted) eqn:E; [ | discriminate]. apply NE. rewrite <- (rev_involutive sorted), E. reflexivity.
    + intros g z I. unfold st0 in I. apply in_map_iff in I. destruct I as ([s b] & E & I). cbn [fst snd] in E. injection E as <- <-. split; [discriminate | ]. rewrite load_one. apply Sv. rewrite <- FS. apply in_or_app; left; exact I.
    + split; [ | exact B]. rewrite A, E0, <- map_app, FS, <- P. apply Permutation_map, Permutation_sym, Permutation_rev.
Qed.
(** every mode gives every block to exactly one group, and the utility's own check never fires *)
Theorem C64_partition : forall cells nblks sorted m limit, goodMode m -> isSortedBlocks cells nblks sorted -> (1 <= nblks)%nat ->
  let groups := map fst (balance m limit sorted) in
  loadBalancer m limit (map N.of_nat (seq 0 nblks)) sorted = Some (writeGroups groups) /\ isPartition (map (map Z.of_N) groups) nblks /\ onlyBlocks (map (map Z.of_N) groups) nblks /\
  (forall g, In g groups -> g <> []).
Proof.
  intros cells nblks sorted m limit GM SB Hn groups. destruct (balance_spec cells nblks sorted m limit GM SB Hn) as [P G]. change (blocksIn (balance m limit sorted)) with (concat groups) in P.
  assert (A : allBlocksAssigned (map N.of_nat (seq 0 nblks)) groups = true).
  { unfold allBlocksAssigned. apply andb_true_iff. split.
    - apply forallb_forall. intros b I. apply Permutation_sym in P. apply (Permutation_in _ P) in I. apply in_concat in I. destruct I as (g & I1 & I2). apply existsb_exists. exists g. split; [exact I1 | ]. apply existsb_exists. exists b. split; [exact I2 | apply N.eqb_refl].
    - apply Nat.eqb_eq. rewrite fold_len. apply (Permutation_length P). }
  destruct (C64_check_sound nblks groups A) as (_ & A1 & A2). split; [unfold loadBalancer; fold groups; rewrite A; reflexivity | ]. split; [exact A1 | ]. split; [exact A2 | ].
  intros g I. apply in_map_iff in I. destruct I as ([g' z] & <- & I). apply (G g' z I).
Qed.
Lemma nodup_app {A} (a b : list A) : NoDup a -> NoDup b -> (forall x, In x a -> ~ In x b) -> NoDup (a ++ b).
Proof.
  induction 1 as [|x a Nx Ha IH]; intros Hb D; [exact Hb|]. cbn [app]. constructor.
  - rewrite in_app_iff. intros [H|H]; [contradiction|]. apply (D x); [now left|exact H].
  - apply IH; [exact Hb|]. intros y Hy. apply D. now right.
Qed.
Lemma NoDup_app_intro_prod {A B} (x : A) (a : list A) (b : list B) : ~ In x a -> NoDup b -> NoDup (list_prod a b) -> NoDup (map (fun y => (x, y)) b ++ list_prod a b).
Proof.
  intros Nx Hb Hp. apply nodup_app; [apply FinFun.Injective_map_NoDup; [intros u v E; congruence|exact Hb]|exact Hp|].
  intros [u v] H H'. apply in_map_iff in H as (y & E & _). apply in_prod_iff in H' as [H' _]. congruence.
Qed.
(** the size of a block is the number of its cells: the index triples below ni-1, nj-1, nk-1 *)
Theorem C64_sizes : forall ni nj nk, 1 <= ni -> 1 <= nj -> 1 <= nk -> exists cells : list (Z * Z * Z), NoDup cells /\ (forall i j k, In (i, j, k) cells <-> 0 <= i < ni - 1 /\ 0 <= j < nj - 1 /\ 0 <= k < nk - 1) /\
  sizeOf (ni, nj, nk) = Z.of_nat (List.length cells).
Proof.
  intros ni nj nk I J K. set (R := fun n => map Z.of_nat (seq 0 (Z.to_nat (n - 1)))).
  assert (RI : forall n x, 1 <= n -> (In x (R n) <-> 0 <= x < n - 1)).
  { intros n x N. unfold R. rewrite in_map_iff. split; [intros (m & <- & H); apply in_seq in H; lia|intros H; exists (Z.to_nat x); split; [lia|apply in_seq; lia]]. }
  assert (RN : forall n, NoDup (R n)) by (intros n; unfold R; apply FinFun.Injective_map_NoDup; [intros a b E; lia|apply seq_NoDup]).
  assert (RL : forall n, 1 <= n -> Z.of_nat (List.length (R n)) = n - 1) by (intros n N; unfold R; rewrite map_length, seq_length; lia).
  exists (list_prod (list_prod (R ni) (R nj)) (R nk)). split; [|split].
  - assert (PN : forall A B (a : list A) (b : list B), NoDup a -> NoDup b -> NoDup (list_prod a b)).
    { intros A B a b Ha Hb. induction Ha as [|x a Nx Ha IH]; cbn [list_prod]; [constructor|]. apply NoDup_app_intro_prod; auto. }
    apply PN; [apply PN|]; apply RN.
  - intros i j k. rewrite !in_prod_iff, !RI by lia. tauto.
  - unfold sizeOf. rewrite !prod_length, !Nat2Z.inj_mul, !RL by lia. ring.
Qed.
(** the reported loads are the cells of the groups; in both minimising modes none exceeds the largest block *)
Theorem C64_loads : forall cells nblks sorted m limit, goodMode m -> isSortedBlocks cells nblks sorted -> (1 <= nblks)%nat ->
  (forall g z, In (g, z) (balance m limit sorted) -> z = load cells g) /\
  (m = MinProcs \/ m = MinBlksPerProc -> exists big, (big < nblks)%nat /\ forall g z, In (g, z) (balance m limit sorted) -> load cells g <= cells (N.of_nat big)).
Proof.
  intros cells nblks sorted m limit GM SB Hn. destruct (balance_spec cells nblks sorted m limit GM SB Hn) as [_ G]. split; [intros g z I; apply (G g z I) | ].
  destruct SB as (P & S & _). assert (NE : sorted <> []) by (intros ->; apply Permutation_length in P; rewrite !map_length, seq_length in P; cbn in P; lia). destruct (maxSize_in sorted NE) as [b I].
  assert (J := in_map snd _ _ I). cbn [snd] in J. apply (Permutation_in _ P) in J. apply in_map_iff in J. destruct J as (k & <- & J). apply in_seq in J. intros H. exists k. split; [lia | ]. rewrite <- (S _ _ I).
  assert (MX := maxSize_ge sorted). intros g z Q. destruct (G g z Q) as [_ <-]. destruct H as [-> | ->]; cbn [balance] in Q.
  - destruct (minProcs_load cells (maxSizeOf sorted) limit sorted S MX [] 0) with (4 := Q); [reflexivity | congruence | auto | assumption].
  - destruct (minBlks_spec cells (maxSizeOf sorted) limit (List.length sorted) sorted (le_n _) S MX) as [_ B]. apply (B g z Q).
Qed.
Theorem C64_number_of_processors : forall cells nblks sorted n light limit, goodMode (NumProcs n light) -> isSortedBlocks cells nblks sorted -> (1 <= nblks)%nat ->
  List.length (balance (NumProcs n light) limit sorted) = Nat.min n nblks.
Proof.
  intros cells nblks sorted n light limit [G1 G2] (P & S & _) Hn. cbn [balance]. replace (0 <? Z.of_nat n) with true by (symmetry; apply Z.ltb_lt; lia). unfold numProcsGroups.
  assert (X : forall l st, List.length (fold_left (fun st b => addTo (light st) b st) l st) = List.length st).
  { induction l as [|b l IH]; intros st; cbn [fold_left]; [reflexivity | ]. rewrite IH. apply (addFrom_length 0). }
  rewrite X, map_length, firstn_length, rev_length. apply Permutation_length in P. rewrite !map_length, seq_length in P. rewrite P. reflexivity.
Qed.
(** end to end: the file the utility writes is accepted by a run on that many ranks, with the same groups, and every neighbour is looked for on the rank that owns it *)
Theorem C64_end_to_end : forall cells nblks sorted m limit, goodMode m -> isSortedBlocks cells nblks sorted -> (1 <= nblks)%nat ->
  exists file, loadBalancer m limit (map N.of_nat (seq 0 nblks)) sorted = Some file /\
  let groups := map (map Z.of_N) (map fst (balance m limit sorted)) in
  bootstrap (Some file) (Z.of_nat (List.length groups)) (Z.of_nat nblks) = Accepted groups /\ isPartition groups nblks /\
  forall nb old, 0 <= nb < Z.of_nat nblks -> exists r, commRank groups (Some nb) old = Some r /\ owns groups r nb.
Proof.
  intros cells nblks sorted m limit GM SB Hn. destruct (C64_partition cells nblks sorted m limit GM SB Hn) as (L & P & O & N). cbv zeta in *. eexists. split; [exact L | ].
  destruct (balance_spec cells nblks sorted m limit GM SB Hn) as [Pm _]. unfold blocksIn in Pm. set (groups := map (map Z.of_N) (map fst (balance m limit sorted))) in *.
  assert (C : Permutation (concat groups) (map Z.of_nat (seq 0 nblks))).
  { unfold groups. rewrite <- concat_map. rewrite (Permutation_map Z.of_N Pm), map_map. replace (map (fun x => Z.of_N (N.of_nat x)) (seq 0 nblks)) with (map Z.of_nat (seq 0 nblks)) by (apply map_ext; intros; lia). reflexivity. }
  split; [ | split; [exact P | ]].
  - apply bootstrap_accepts. split; [apply C62_round_trip | ]. split; [reflexivity | ]. split; [apply Permutation_length in C; rewrite map_length, seq_length in C; lia | ]. split.
    + intros I. unfold groups in I. apply in_map_iff in I. destruct I as (g & E & I). destruct g; [ | discriminate]. exact (N [] I eq_refl).
    + split; [ | split; [ | lia]].
      * intros y I. apply in_concat in I. destruct I as (g & G & I). specialize (O g y G I). lia.
      * right. apply Permutation_sym in C. apply (Permutation_in _ C). apply in_map_iff. exists (nblks - 1)%nat. split; [lia | apply in_seq; lia].
  - intros nb old H. destruct (C63_neighbour_rank groups nblks P nb old H) as (r & A & B & _). eauto.
Qed.

(** * C97: the limit on blocks per processor *)
Theorem C97_limit_respected : forall cells nblks sorted m n, m = MinProcs \/ m = MinBlksPerProc -> isSortedBlocks cells nblks sorted -> (1 <= nblks)%nat -> (1 <= n)%nat ->
  forall g z, In (g, z) (balance m (Some n) sorted) -> (List.length g <= n)%nat.
Proof.
  intros cells nblks sorted m n [-> | ->] (P & S & _) Hn H1 g z I; cbn [balance] in I.
  - eapply minProcs_limit; [exact H1 | | exact I]. cbn; lia.
  - destruct (minBlks_spec cells (maxSizeOf sorted) (Some n) (List.length sorted) sorted (le_n _) S (maxSize_ge sorted)) as [_ B]. apply (B g z I); auto.
Qed.
Definition exSorted : list (Z * N) := [(1, 2%N); (4, 0%N); (6, 3%N); (8, 1%N)].
Definition exCells (b : N) : Z := match b with 2%N => 1 | 0%N => 4 | 3%N => 6 | 1%N => 8 | _ => 0 end.
(** the limit is not looked at when a number of processors is asked for *)
Theorem C97_num_procs_refuted : exists cells nblks sorted m, goodMode m /\ isSortedBlocks cells nblks sorted /\ exists g z, In (g, z) (balance m (Some 1%nat) sorted) /\ (1 < List.length g)%nat.
Proof.
  exists exCells, 4%nat, exSorted, (NumProcs 1 (fun _ => 0%nat)). split; [split; [lia | intros st N; destruct st; [congruence | cbn; lia]] | ]. split; [ | exists [1; 3; 0; 2]%N, 19; split; [left; reflexivity | cbn; lia]].
  split; [ | split].
  - cbn. apply NoDup_Permutation_bis; [repeat constructor; cbn; lia | cbn; lia | ]. intros b; cbn; lia.
  - intros s b. cbn. intros [E | [E | [E | [E | []]]]]; injection E as <- <-; reflexivity.
  - cbn. repeat constructor; lia.
Qed.
Example C64_nonvacuous : isSortedBlocks exCells 4 exSorted /\ map fst (balance MinProcs None exSorted) = [[2; 0]; [3]; [1]]%N /\ map fst (balance MinBlksPerProc (Some 2%nat) exSorted) = [[1]; [3; 2]; [0]]%N.
Proof.
  split; [ | split; reflexivity]. split; [ | split].
  - cbn. apply NoDup_Permutation_bis; [repeat constructor; cbn; lia | cbn; lia | ]. intros b; cbn; lia.
  - intros s b. cbn. intros [E | [E | [E | [E | []]]]]; injection E as <- <-; reflexivity.
  - cbn. repeat constructor; lia.
Qed.
Example C63_nonvacuous : exists groups, bootstrap (Some (unlines [txt "2, 0"; txt "# comment"; txt "1,"])) 2 3 = Accepted groups /\ NoDup (concat groups) /\ commRank groups (Some 1) None = Some 1.
Proof. eexists. split; [reflexivity | ]. split; [ | reflexivity]. cbn. repeat constructor; cbn; lia. Qed.
Print Assumptions C62_round_trip.
Print Assumptions C63_partition_partial.
Print Assumptions C64_end_to_end.
