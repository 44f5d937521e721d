(** multiBlockCube: loop, connectivity, coordinates. *)
From Coq Require Import Reals ZArith String List Bool Lia Lra Permutation.
From Verif Require Import M_Topology S_Topology L_Topology M_Halo S_Halo L_Halo1 L_Halo3 M_Grid S_Grid.
Import ListNotations.
Open Scope Z_scope.

Lemma zrange_in a b x : In x (zrange a b) <-> a <= x < b.
Proof.
  unfold zrange. rewrite in_map_iff. split.
  - intros [n [<- H]]. apply in_seq in H. lia.
  - intros H. exists (Z.to_nat (x - a)). split; [lia|]. apply in_seq. lia.
Qed.
Lemma zrange_NoDup a b : NoDup (zrange a b).
Proof. unfold zrange. apply FinFun.Injective_map_NoDup; [intros x y H; lia|apply seq_NoDup]. Qed.

Lemma NoDup_app_disj {A} (l1 l2 : list A) : NoDup l1 -> NoDup l2 -> (forall x, In x l1 -> ~ In x l2) -> NoDup (l1 ++ l2).
Proof.
  induction l1 as [|a l1 IH]; simpl; intros H1 H2 H; auto. inversion H1; subst. constructor.
  - intros Hin. apply in_app_or in Hin as [Hin|Hin]; auto. eapply H; eauto.
  - apply IH; auto.
Qed.
Lemma NoDup_flat_map {A B} (f : A -> list B) l : NoDup l -> (forall x, In x l -> NoDup (f x)) ->
  (forall x y z, In x l -> In y l -> In z (f x) -> In z (f y) -> x = y) -> NoDup (flat_map f l).
Proof.
  induction l as [|a l IH]; simpl; intros N H D; [constructor|]. inversion N; subst. apply NoDup_app_disj.
  - apply H; auto.
  - apply IH; auto. intros; eapply D; eauto.
  - intros x Hx Hx'. apply in_flat_map in Hx' as [y [Hy Hy']]. assert (a = y) by (eapply D; eauto). subst. auto.
Qed.

Lemma triples3_in m i j k : In (i, j, k) (triples3 m) <-> inLattice m (i, j, k).
Proof.
  destruct m as [[m0 m1] m2]. unfold triples3, inLattice; cbn [fst snd]. rewrite in_flat_map. split.
  - intros [k' [Hk H]]. apply in_flat_map in H as [j' [Hj H]]. apply in_map_iff in H as [i' [E Hi]].
    injection E as -> -> ->. apply zrange_in in Hi, Hj, Hk. intros []; simpl; lia.
  - intros H. pose proof (H I) as Hi. pose proof (H J) as Hj. pose proof (H K) as Hk. simpl in *.
    exists k. split; [apply zrange_in; lia|]. apply in_flat_map. exists j. split; [apply zrange_in; lia|].
    apply in_map_iff. exists i. split; auto. apply zrange_in; lia.
Qed.
Lemma triples3_NoDup m : NoDup (triples3 m).
Proof.
  unfold triples3. apply NoDup_flat_map; [apply zrange_NoDup| |].
  - intros k _. apply NoDup_flat_map; [apply zrange_NoDup| |].
    + intros j _. apply FinFun.Injective_map_NoDup; [intros x y H; congruence|apply zrange_NoDup].
    + intros j j' z _ _ H H'. apply in_map_iff in H as [i [<- _]]. apply in_map_iff in H' as [i' [E _]]. congruence.
  - intros k k' z _ _ H H'. apply in_flat_map in H as [j [_ H]]. apply in_flat_map in H' as [j' [_ H']].
    apply in_map_iff in H as [i [<- _]]. apply in_map_iff in H' as [i' [E _]]. congruence.
Qed.

Lemma blkNumber_number m i j k : blkNumber m i j k = number m (i, j, k).
Proof. destruct m as [[m0 m1] m2]. unfold blkNumber, number; simpl. ring. Qed.

Lemma number_inj m c c' : inLattice m c -> inLattice m c' -> number m c = number m c' -> c = c'.
Proof.
  intros H H' E. pose proof (H I). pose proof (H J). pose proof (H K). pose proof (H' I). pose proof (H' J). pose proof (H' K).
  destruct m as [[m0 m1] m2], c as [[i j] k], c' as [[i' j'] k']. unfold number in E. simpl in *.
  assert (i = i').
  { rewrite <- (Z.mod_small i m0), <- (Z.mod_small i' m0) by lia.
    replace i with ((i + m0 * (j + m1 * k)) - (j + m1 * k) * m0) by ring.
    replace i' with ((i' + m0 * (j' + m1 * k')) - (j' + m1 * k') * m0) by ring.
    rewrite E. rewrite <- !Z.add_opp_r, <- !Z.mul_opp_l, !Z.mod_add by lia. reflexivity. }
  subst i'. assert (j + m1 * k = j' + m1 * k') by nia.
  assert (j = j').
  { rewrite <- (Z.mod_small j m1), <- (Z.mod_small j' m1) by lia.
    replace j with ((j + m1 * k) - k * m1) by ring. replace j' with ((j' + m1 * k') - k' * m1) by ring.
    rewrite H6. rewrite <- !Z.add_opp_r, <- !Z.mul_opp_l, !Z.mod_add by lia. reflexivity. }
  subst j'. assert (k = k') by nia. congruence.
Qed.
Lemma number_range m c : inLattice m c -> 0 <= number m c < co m I * co m J * co m K.
Proof.
  intros H. pose proof (H I). pose proof (H J). pose proof (H K). destruct m as [[m0 m1] m2], c as [[i j] k]. unfold number. simpl in *.
  assert (0 <= j + m1 * k < m1 * m2) by nia. nia.
Qed.
Lemma number_onto m n : (forall a, 0 < co m a) -> 0 <= n < co m I * co m J * co m K -> exists c, inLattice m c /\ number m c = n.
Proof.
  intros P H. pose proof (P I). pose proof (P J). pose proof (P K). destruct m as [[m0 m1] m2]. simpl in *.
  exists (n mod m0, (n / m0) mod m1, n / m0 / m1). split.
  - intros []; simpl; try (apply Z.mod_pos_bound; lia). split.
    + apply Z.div_pos; [apply Z.div_pos; lia|lia].
    + apply Z.div_lt_upper_bound; [lia|]. apply Z.div_lt_upper_bound; lia.
  - unfold number; simpl. rewrite <- (Z.add_comm (m1 * _)), <- Z.div_mod by lia. rewrite Z.add_comm, <- Z.div_mod by lia. reflexivity.
Qed.

(** the update loop *)
Lemma set_nth_length {A} (l : list A) n v : length (set_nth l n v) = length l.
Proof. revert n. induction l; intros [|n]; simpl; auto. Qed.
Lemma set_nth_same {A} (l : list A) n v : (n < length l)%nat -> nth_error (set_nth l n v) n = Some v.
Proof. revert n. induction l; intros [|n] H; simpl in *; auto; try lia. apply IHl. lia. Qed.
Lemma set_nth_other {A} (l : list A) n m v : n <> m -> nth_error (set_nth l n v) m = nth_error l m.
Proof. revert n m. induction l; intros [|n] [|m] H; simpl; auto; try congruence. Qed.

Lemma loop_spec {A C} (num : C -> Z) (f : C -> A -> A) (l : list A) cs :
  NoDup (map num cs) -> (forall c, In c cs -> 0 <= num c < Z.of_nat (length l)) ->
  exists l', fold_left (fun acc c => match acc with None => None | Some x => updateAt x (num c) (f c) end) cs (Some l) = Some l' /\
    length l' = length l /\
    (forall c a, In c cs -> nth_error l (Z.to_nat (num c)) = Some a -> nth_error l' (Z.to_nat (num c)) = Some (f c a)) /\
    (forall n, (forall c, In c cs -> Z.to_nat (num c) <> n) -> nth_error l' n = nth_error l n).
Proof.
  revert l. induction cs as [|c cs IH]; intros l N H; cbn [fold_left].
  - exists l. repeat split; auto. intros c a [].
  - simpl in N. inversion N as [|? ? Hni N']; subst. pose proof (H c (or_introl eq_refl)) as Hc.
    unfold updateAt at 2.
    replace ((0 <=? num c) && (num c <? Z.of_nat (length l))) with true by (symmetry; apply andb_true_intro; split; lia).
    destruct (nth_error l (Z.to_nat (num c))) as [a0|] eqn:E; [|apply nth_error_None in E; lia].
    destruct (IH (set_nth l (Z.to_nat (num c)) (f c a0)) N') as (l' & E' & L & P1 & P2).
    { intros c' Hc'. rewrite set_nth_length. apply H. now right. }
    exists l'. split; auto. rewrite set_nth_length in L. split; auto. split.
    + intros c' a [<-|Hc'] Ha.
      * rewrite P2. { rewrite set_nth_same by lia. congruence. }
        intros c' Hc' Heq. apply Hni. assert (num c' = num c) by (pose proof (H c' (or_intror Hc')); lia).
        rewrite <- H0. now apply in_map.
      * apply P1; auto. rewrite set_nth_other; auto. intros Heq. apply Hni.
        assert (num c' = num c) by (pose proof (H c' (or_intror Hc')); lia). rewrite <- H0. now apply in_map.
    + intros n Hn. rewrite P2 by (intros; apply Hn; now right). apply set_nth_other. apply Hn. now left.
Qed.

Lemma fold_left_ext {A B} (g h : A -> B -> A) l : (forall x y, g x y = h x y) -> forall a, fold_left g l a = fold_left h l a.
Proof. intros H. induction l; intros a0; simpl; auto. rewrite H. auto. Qed.

Lemma cube_loop mb o l m d per : (forall a, 0 < co m a) -> co m I * co m J * co m K = Z.of_nat (length mb) ->
  exists mb', multiBlockCube mb o l m d per = Some mb' /\ length mb' = length mb /\
   forall i j k b, inLattice m (i, j, k) -> nth_error mb (Z.to_nat (number m (i,j,k))) = Some b ->
     nth_error mb' (Z.to_nat (number m (i,j,k))) = Some (cubeBlock o l m d per i j k b).
Proof.
  intros P E. unfold multiBlockCube.
  replace (fst (fst m) * snd (fst m) * snd m =? Z.of_nat (length mb)) with true by (symmetry; apply Z.eqb_eq; exact E).
  destruct (loop_spec (fun c => number m c) (fun c => let '(i,j,k) := c in cubeBlock o l m d per i j k) mb (triples3 m)) as (mb' & E' & L & P1 & _).
  - assert (G: forall l0, NoDup l0 -> (forall c, In c l0 -> inLattice m c) -> NoDup (map (number m) l0)).
    { induction l0 as [|a l0 IH]; intros N H; simpl; [constructor|]. inversion N; subst. constructor.
      - intros Hin. apply in_map_iff in Hin as [c [Ec Hc]]. assert (c = a) by (apply (number_inj m); auto; apply H; [now right|now left]). subst; auto.
      - apply IH; auto. intros; apply H; now right. }
    apply G; [apply triples3_NoDup|]. intros [[i j] k] H. now apply triples3_in.
  - intros [[i j] k] H. apply triples3_in in H. pose proof (number_range m _ H). lia.
  - exists mb'. split; [|split; auto].
    + rewrite <- E'. apply fold_left_ext. intros [x|] [[i j] k]; [|reflexivity]. now rewrite blkNumber_number.
    + intros i j k b H Hb. apply (P1 (i,j,k) b); auto. now apply triples3_in.
Qed.

(** connectivity *)
Lemma cubicFace_nface m n i j k a b c f : nface (cubicFace m n i j k a b c f) = nface f.
Proof.
  unfold cubicFace. destruct (nface f) as [|[[[p|p|]|[p|p|]|]|[[p|p|]|[p|p|]|]|]|p] eqn:E; try exact E;
   repeat match goal with |- context [if ?x then _ else _] => destruct x end; simpl; exact E.
Qed.
Lemma setPI_face l f : gf_face (setPeriodicInfo l f) = gf_face f.
Proof. destruct l as [[? ?] ?]. unfold setPeriodicInfo. repeat match goal with |- context [if ?x then _ else _] => destruct x end; reflexivity. Qed.

Lemma outward_cases n s : outward n s -> (n, s) = (1,(I,false)) \/ (n,s) = (2,(I,true)) \/ (n,s) = (3,(J,false)) \/ (n,s) = (4,(J,true)) \/ (n,s) = (5,(K,false)) \/ (n,s) = (6,(K,true)).
Proof.
  intros O. apply outward_range in O as [R ->].
  assert (X: n = 1 \/ n = 2 \/ n = 3 \/ n = 4 \/ n = 5 \/ n = 6) by lia.
  destruct X as [->|[->|[->|[->|[->| ->]]]]]; simpl; auto 10.
Qed.

Lemma cubicFace_neighbor m per i j k f s : outward (nface f) s -> inLattice m (i,j,k) ->
  let g := cubicFace m (number m (i,j,k)) i j k (perAx per I) (perAx per J) (perAx per K) f in
  neighbor g = option_map (number m) (nextBlock m per (i,j,k) s) /\
  (neighbor g <> None -> orientation g = Some "123"%string) /\
  (neighbor g = None -> bcType g = "adiabaticNoSlipWall"%string).
Proof.
  intros O H. pose proof (H I) as Hi. pose proof (H J) as Hj. pose proof (H K) as Hk.
  destruct m as [[m0 m1] m2], per as [[pI pJ] pK]. cbn [co fst snd perAx] in *.
  apply outward_cases in O as [E|[E|[E|[E|[E|E]]]]]; injection E as En ->; unfold cubicFace; rewrite En; cbn [fst snd];
   unfold nextBlock; cbn [fst snd co perAx with_co];
   match goal with |- context [if ?x =? ?y then _ else _] => destruct (Z.eqb_spec x y) end;
   match goal with |- context [(?a <=? ?b) && (?c <? ?d)] => 
     first [replace ((a <=? b) && (c <? d)) with true by (symmetry; apply andb_true_intro; split; lia)
           |replace ((a <=? b) && (c <? d)) with false by (symmetry; apply andb_false_iff; lia)] end;
   try match goal with |- context [if ?p then setPeriodic _ _ _ _ else _] => destruct p end;
   cbn [neighbor orientation bcType setPeriodic setInterior setBoundary option_map number co fst snd];
   (split; [|split; [congruence|congruence]]); try reflexivity; f_equal; unfold number; cbn [co fst snd]; subst; try ring.
Qed.

Lemma nextBlock_in m per c s c' : inLattice m c -> nextBlock m per c s = Some c' -> inLattice m c'.
Proof.
  intros H E. pose proof (H I). pose proof (H J). pose proof (H K). destruct m as [[m0 m1] m2], c as [[i j] k]. unfold nextBlock in E. cbn [co fst snd] in *.
  destruct ((0 <=? _) && (_ <? _)) eqn:B.
  - apply andb_prop in B as [B1 B2]. injection E as <-. destruct s as [[] []]; intros []; simpl in *; lia.
  - destruct (perAx per (fst s)); [|discriminate]. injection E as <-. destruct s as [[] []]; intros []; simpl in *; lia.
Qed.
Lemma nextBlock_sym m per c s c' : inLattice m c -> nextBlock m per c s = Some c' -> nextBlock m per c' (flip s) = Some c.
Proof.
  intros H E. pose proof (H I). pose proof (H J). pose proof (H K). destruct m as [[m0 m1] m2], c as [[i j] k]. unfold nextBlock in *. cbn [co fst snd] in *.
  destruct ((0 <=? _) && (_ <? _)) eqn:B.
  - apply andb_prop in B as [B1 B2]. injection E as <-. destruct s as [[] []]; simpl in *;
    match goal with |- context [(?a <=? ?b) && (?c <? ?d)] => replace ((a <=? b) && (c <? d)) with true by (symmetry; apply andb_true_intro; split; lia) end;
    repeat f_equal; lia.
  - destruct (perAx per (fst s)) eqn:P; [|discriminate]. injection E as <-. destruct s as [[] []]; cbn [co fst snd flip negb with_co] in *; rewrite ?P;
    try (apply andb_false_iff in B; destruct B as [B|B]; try lia);
    match goal with |- context [(?a <=? ?b) && (?c <? ?d)] => 
     first [replace ((a <=? b) && (c <? d)) with false by (symmetry; apply andb_false_iff; lia)] end;
    repeat f_equal; lia.
Qed.
