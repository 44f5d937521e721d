(** Lemmas for C137, second part: all blocks of a path, and the search for interior neighbours. *)
From Coq Require Import ZArith String Ascii List Bool Lia Reals.
From Verif Require Import M_Topology S_Topology L_Topology P_Topology M_Cut S_Cut L_Cut L_Cut2 P_Cut P_CutPath M_CutGrid S_CutGrid L_CutGrid1.
Import ListNotations.
Open Scope Z_scope.

Lemma axis_eqb_refl a : axis_eqb a a = true. Proof. destruct a; reflexivity. Qed.
Lemma axis_eqb_spec a b : reflect (a = b) (axis_eqb a b).
Proof. destruct a, b; constructor; congruence. Qed.

Lemma countAlong_points b a : countAlong (gshape b) (letter a) = Some (points b a).
Proof. unfold countAlong, points. destruct (gshape b) as [[x y] z]. destruct a; reflexivity. Qed.

Section CutAll.
Variable mb0 : list gblock.
Let N := Z.of_nat (length mb0).
Hypothesis W0 : wfGrid mb0.
Hypothesis C0 : closed mb0.
Hypothesis P0 : paired mb0.
Hypothesis R0 : forall n k g, fac mb0 n k g -> periodicReady g.
Variables n0 idx : Z.
Hypothesis Hidx : 0 < idx < n0 - 1.
Variable path : list cutState.
Hypothesis ND : NoDup (map blockOf path).
Hypothesis InP : forall A a r, In (A, a, r) path -> exists b, blk mb0 A b /\ points b a = n0.
Hypothesis Lat : forall A a r s B s' o, In (A, a, r) path -> fst s <> a -> conn mb0 A s B s' o ->
  In (B, fst (o a), if snd (o a) then r else negb r) path.

(** The table of flags produced for a part of the path that starts at position [j]. *)
Inductive tableFor : nat -> list cutState -> table -> Prop :=
| t_nil : forall j, tableFor j [] []
| t_cons : forall j A a r rest flags ff, flagsFor mb0 A a flags -> tableFor (S j) rest ff ->
    tableFor j ((A, a, r) :: rest) ((A, flags) :: (N + Z.of_nat j, flags) :: ff).

Lemma inv_nil : Inv mb0 n0 idx [] mb0.
Proof.
  constructor; auto.
  - cbn [length]. lia.
  - intros X b0 H. exists b0. cbn. auto.
  - intros [|j]; discriminate.
  - intros X s g0 F. exists g0. split; [exact F|]. unfold oldFace. cbn. split; [apply same_refl|]. split; [auto|].
    intros B s' o (g & F' & NB & _). rewrite (fac_fun _ _ _ _ _ F F'). unfold newNbr. cbn. exact NB.
  - intros [|j]; discriminate.
Qed.

Lemma cut_rest : forall rest done mb ff, path = done ++ rest -> Inv mb0 n0 idx done mb ->
  exists mb' ffr, cutItems n0 idx (n0 - idx - 1) (map enc rest) mb ff = Some (mb', ff ++ ffr) /\
    tableFor (length done) rest ffr /\ Inv mb0 n0 idx path mb'.
Proof.
  induction rest as [|[[A a] r] rest IH]; intros done mb ff E V.
  - exists mb, []. rewrite app_nil_r in *. subst done. split; [reflexivity|]. split; [constructor|exact V].
  - destruct (step mb0 W0 C0 P0 R0 n0 idx Hidx path ND InP Lat done rest A a r mb E V)
      as (b & mb1 & flags & Hb & Pb & EC & FL & V1).
    destruct (IH (done ++ [(A, a, r)]) mb1 (ff ++ [(A, flags); (N + Z.of_nat (length done), flags)])) as (mb' & ffr & E1 & T & V2);
      [rewrite <- app_assoc; exact E|exact V1|].
    exists mb', ((A, flags) :: (N + Z.of_nat (length done), flags) :: ffr). split.
    + cbn [map enc cutItems]. rewrite (getBlk_blk _ _ _ (i_wf _ _ _ _ _ V) Hb), countAlong_points, Pb, Z.eqb_refl.
      cbn [negb]. replace (if r then n0 - idx - 1 else idx) with (cutAt n0 idx r) by reflexivity.
      rewrite EC. etransitivity; [exact E1|]. f_equal. f_equal. rewrite <- app_assoc. reflexivity.
    + split; [|exact V2]. constructor; [exact FL|]. rewrite app_length in T. cbn [length] in T. rewrite Nat.add_1_r in T. exact T.
Qed.

Lemma cut_all : exists mb' ff, cutItems n0 idx (n0 - idx - 1) (map enc path) mb0 [] = Some (mb', ff) /\
  tableFor 0 path ff /\ Inv mb0 n0 idx path mb'.
Proof. apply (cut_rest path [] mb0 []); [reflexivity|apply inv_nil]. Qed.

(** Reading the table. *)
Lemma table_in : forall j rest ff X l, tableFor j rest ff -> In (X, l) ff ->
  exists i A a r, nth_error rest i = Some (A, a, r) /\ (X = A \/ X = N + Z.of_nat (j + i)) /\ flagsFor mb0 A a l.
Proof.
  intros j rest ff X l T. induction T as [|j A a r rest flags ff FL T IH]; intros H; [easy|].
  destruct H as [H|[H|H]].
  - injection H as <- <-. exists 0%nat, A, a, r. cbn. auto.
  - injection H as <- <-. exists 0%nat, A, a, r. rewrite Nat.add_0_r. cbn. auto.
  - destruct (IH H) as (i & A' & a' & r' & Q & D & FL'). exists (S i), A', a', r'. rewrite <- Nat.add_succ_comm. auto.
Qed.
Lemma table_has : forall j rest ff i A a r, tableFor j rest ff -> nth_error rest i = Some (A, a, r) ->
  exists l, flagsFor mb0 A a l /\ In (A, l) ff /\ In (N + Z.of_nat (j + i), l) ff.
Proof.
  intros j rest ff i A a r T. revert i. induction T as [|j A' a' r' rest flags ff FL T IH]; intros i Q; [destruct i; discriminate|].
  destruct i as [|i]; cbn in Q.
  - injection Q as -> -> ->. exists flags. rewrite Nat.add_0_r. cbn. auto.
  - destruct (IH i Q) as (l & FL' & H1 & H2). exists l. rewrite Nat.add_succ_r. cbn. auto.
Qed.
Lemma table_nodup : forall j rest ff, tableFor j rest ff -> NoDup (map blockOf rest) ->
  (forall A a r, In (A, a, r) rest -> 0 <= A < N) -> NoDup (map fst ff).
Proof.
  intros j rest ff T. induction T as [|j A a r rest flags ff FL T IH]; intros Nd HA; [constructor|].
  cbn in Nd. inversion Nd as [|? ? Na Nt]; subst. cbn [map fst].
  assert (IHH : NoDup (map fst ff)) by (apply IH; [exact Nt|intros; eapply HA; right; eauto]).
  assert (RA : 0 <= A < N) by (eapply HA; left; reflexivity).
  constructor; [|constructor; [|exact IHH]].
  - intros [H|H]; [lia|]. apply in_map_iff in H as ([X l] & E & H). cbn in E. subst X.
    destruct (table_in _ _ _ _ _ T H) as (i & A' & a' & r' & Q & [-> |D] & _); [|lia].
    apply Na. apply nth_error_In in Q. apply in_map_iff. exists (A', a', r'). auto.
  - intros H. apply in_map_iff in H as ([X l] & E & H). cbn in E. subst X.
    destruct (table_in _ _ _ _ _ T H) as (i & A' & a' & r' & Q & [D|D] & _); [|lia].
    apply nth_error_In in Q. specialize (HA A' a' r' (or_intror Q)). lia.
Qed.
End CutAll.

(** * The search *)
Lemma foldO_ind {A S} (f : A -> S -> option S) (P : list A -> S -> Prop) (full : list A) :
  (forall done a rest s, full = done ++ a :: rest -> P done s -> exists s', f a s = Some s' /\ P (done ++ [a]) s') ->
  forall s, P [] s -> exists s', foldO f full s = Some s' /\ P full s'.
Proof.
  intros Hs. assert (G : forall rest done s, full = done ++ rest -> P done s -> exists s', foldO f rest s = Some s' /\ P full s').
  { induction rest as [|a rest IH]; intros done s E Ps.
    - exists s. rewrite app_nil_r in E. subst. auto.
    - destruct (Hs _ _ _ _ E Ps) as (s1 & E1 & P1). cbn [foldO]. rewrite E1. cbn [bindO]. apply (IH (done ++ [a])); [now rewrite <- app_assoc|exact P1]. }
  intros s Ps. apply (G full [] s); auto.
Qed.

Lemma enumerate_nth {A} (l : list A) i x : nth_error (enumerate l) i = Some x -> fst x = i /\ nth_error l i = Some (snd x).
Proof.
  unfold enumerate. assert (G : forall (l : list A) k i x, nth_error (combine (seq k (length l)) l) i = Some x -> fst x = (k + i)%nat /\ nth_error l i = Some (snd x)).
  { clear. induction l as [|h t IH]; intros k [|i] x H; cbn in *; try discriminate.
    - injection H as <-. cbn. split; [lia|reflexivity].
    - destruct (IH _ _ _ H). split; [lia|auto]. }
  intros H. destruct (G _ _ _ _ H). split; [lia|auto].
Qed.
Lemma enumerate_in {A} (l : list A) x : In x (enumerate l) <-> nth_error l (fst x) = Some (snd x).
Proof.
  split.
  - intros H. apply In_nth_error in H as [i H]. destruct (enumerate_nth _ _ _ H) as [E1 E2]. now rewrite E1.
  - intros H. unfold enumerate. destruct x as [i a]. cbn in H.
    assert (G : forall (l : list A) k i, nth_error l i = Some a -> In ((k + i)%nat, a) (combine (seq k (length l)) l)).
    { clear. induction l as [|h t IH]; intros k [|i] H; cbn in *; try discriminate.
      - injection H as ->. left. f_equal. lia.
      - right. replace (k + S i)%nat with (S k + i)%nat by lia. auto. }
    apply (G l 0%nat i H).
Qed.

Definition six : list Z := [1;2;3;4;5;6].
Lemma six_in k : In k six <-> 1 <= k <= 6.
Proof. unfold six. cbn. lia. Qed.

(** Setting the neighbour of one face. *)
Lemma relink_spec m X k v : wfGrid m -> 1 <= k <= 6 ->
  let m' := updBlk X (updFace k (withNeighbor v)) m in
  wfGrid m' /\ length m' = length m /\
  (forall Z1 b, blk m Z1 b -> exists b', blk m' Z1 b' /\ gshape b' = gshape b /\ gx b' = gx b /\ gy b' = gy b /\ gz b' = gz b) /\
  (forall Z1 k1 g, fac m Z1 k1 g -> (Z1, k1) <> (X, k) -> fac m' Z1 k1 g) /\
  (forall g, fac m X k g -> fac m' X k (withNeighbor v g)).
Proof.
  intros W Hk m'. subst m'. split; [|split; [|split; [|split]]].
  - apply wf_updBlk; [exact W|]. intros b Hb. split; [reflexivity|]. rewrite updFace_nums; [apply (W _ _ Hb)|exact Hk|reflexivity].
  - apply updBlk_len.
  - intros Z1 b Hb. eexists. split; [apply nth_updBlk; eauto|]. destruct (Z1 =? X); cbn; auto.
  - intros Z1 k1 g F Ne. assert (K1 := fac_range _ _ _ _ F). apply fac_faceOf in F as (b & Hb & F). apply fac_faceOf. eexists. split; [apply nth_updBlk; eauto|].
    destruct (Z.eqb_spec Z1 X) as [->|N]; [|exact F]. rewrite faceOf_updFace; [|exact Hk|exact K1|eapply wf_len; eauto].
    destruct (Z.eqb_spec k1 k) as [->|N]; [congruence|exact F].
  - intros g F. apply fac_faceOf in F as (b & Hb & F). apply fac_faceOf. eexists. split; [apply nth_updBlk; eauto|].
    rewrite Z.eqb_refl. rewrite faceOf_updFace; [|exact Hk|exact Hk|eapply wf_len; eauto]. rewrite Z.eqb_refl, F. reflexivity.
Qed.

Definition pair_dec (p q : Z * Z) : {p = q} + {p <> q}.
Proof. decide equality; apply Z.eq_dec. Defined.

Section Find.
Variable geo : list gblock.
Variable ff0 : table.
Hypothesis Wg : wfGrid geo.
Hypothesis NDb : NoDup (map fst ff0).
Hypothesis Blk : forall X l, In (X, l) ff0 -> (exists b, blk geo X b) /\ length l = 6%nat.
Definition pend (p : Z * Z) : Prop :=
  exists l, In (fst p, l) ff0 /\ 1 <= snd p <= 6 /\ nth (Z.to_nat (snd p - 1)) l false = false.
Variable Mate : Z * Z -> Z * Z -> Prop.
Hypothesis M1 : forall p q, Mate p q -> pend p /\ pend q /\ p <> q /\ Mate q p.
Hypothesis M2 : forall p q q', Mate p q -> Mate p q' -> q = q'.
Hypothesis M3 : forall p, pend p -> exists q, Mate p q.
Hypothesis Near : forall X k, pend (X, k) -> exists g gb c, fac geo X k g /\ blk geo X gb /\
  (bcType (topo g) = "b0"%string \/ isPeriodic (bcType (topo g)) = true) /\ moved g (centre gb k) = Some c /\
  forall Y k' b', pend (Y, k') -> (Y, k') <> (X, k) -> blk geo Y b' -> (isNear c (centre b' k') = true <-> Mate (X, k) (Y, k')).

Definition Sff (D : list (Z * Z)) (ff : table) : Prop :=
  length ff = length ff0 /\
  forall i X l0, nth_error ff0 i = Some (X, l0) -> exists l, nth_error ff i = Some (X, l) /\ length l = 6%nat /\
    forall k, 1 <= k <= 6 -> (nth (Z.to_nat (k - 1)) l false = true <-> nth (Z.to_nat (k - 1)) l0 false = true \/ In (X, k) D).

Lemma ff0_inj i j X l l' : nth_error ff0 i = Some (X, l) -> nth_error ff0 j = Some (X, l') -> i = j.
Proof.
  intros H H'. apply (map_nth_error fst) in H. apply (map_nth_error fst) in H'. cbn in *.
  apply (proj1 (NoDup_nth_error _) NDb); [apply nth_error_Some; congruence|congruence].
Qed.

Lemma nth_set_nth {A} (l : list A) i v j d : (i < length l)%nat -> nth j (set_nth l i v) d = if Nat.eqb j i then v else nth j l d.
Proof.
  intros H. pose proof (set_nth_nth l i v j H) as E. destruct (Nat.eqb_spec j i) as [->|N].
  - now apply nth_error_nth.
  - destruct (nth_error l j) as [x|] eqn:Ex.
    + rewrite (nth_error_nth _ _ _ E). symmetry. now apply nth_error_nth.
    + rewrite nth_overflow by (apply nth_error_None; exact E). rewrite nth_overflow by (apply nth_error_None; exact Ex). reflexivity.
Qed.

Lemma setFlag_Sff D ff i X l0 k : Sff D ff -> nth_error ff0 i = Some (X, l0) -> 1 <= k <= 6 -> Sff ((X, k) :: D) (setFlag ff i k).
Proof.
  intros [SL S] H Hk. destruct (S _ _ _ H) as (l & E & L & F). unfold setFlag. rewrite E. split; [rewrite set_nth_len; exact SL|].
  intros j Y m0 H'. destruct (S _ _ _ H') as (m & E' & L' & F').
  assert (Li : (i < length ff)%nat) by (apply nth_error_Some; congruence).
  rewrite set_nth_nth by exact Li. destruct (Nat.eqb_spec j i) as [->|N].
  - assert (Y = X /\ m0 = l0) as [-> ->] by (split; congruence). exists (set_nth l (Z.to_nat (k - 1)) true). split; [reflexivity|].
    split; [rewrite set_nth_len; exact L|]. intros k1 Hk1. rewrite nth_set_nth by lia.
    destruct (Nat.eqb_spec (Z.to_nat (k1 - 1)) (Z.to_nat (k - 1))) as [E1|N1].
    + assert (k1 = k) by lia. subst k1. split; [intros _; right; now left|reflexivity].
    + rewrite F by exact Hk1. split; [intros [A|A]; [auto|right; now right]|].
      intros [A|[A|A]]; [auto| |auto]. exfalso. apply N1. congruence.
  - exists m. split; [exact E'|]. split; [exact L'|]. intros k1 Hk1. rewrite F' by exact Hk1.
    split; [intros [A|A]; [auto|right; now right]|]. intros [A|[A|A]]; [auto| |auto].
    exfalso. apply N. assert (Y = X) by congruence. subst Y. eapply ff0_inj; eauto.
Qed.

Record St (D : list (Z * Z)) (st : list gblock * table) : Prop := {
  s_ff : Sff D (snd st);
  s_wf : wfGrid (fst st);
  s_len : length (fst st) = length geo;
  s_blk : forall X b, blk geo X b -> exists b', blk (fst st) X b' /\ gshape b' = gshape b /\ gx b' = gx b /\ gy b' = gy b /\ gz b' = gz b;
  s_fac : forall X k g, fac geo X k g -> exists g', fac (fst st) X k g' /\
    ((~ In (X, k) D /\ g' = g) \/ (In (X, k) D /\ exists Y k', Mate (X, k) (Y, k') /\ g' = withNeighbor (Some Y) g));
  s_pend : forall p, In p D -> pend p;
  s_mate : forall p q, In p D -> Mate p q -> In q D }.

Lemma flagOf_iff D st i X l0 k : St D st -> nth_error ff0 i = Some (X, l0) -> 1 <= k <= 6 ->
  flagOf (snd st) i k = true <-> nth (Z.to_nat (k - 1)) l0 false = true \/ In (X, k) D.
Proof.
  intros S H Hk. destruct (s_ff _ _ S) as [_ F]. destruct (F _ _ _ H) as (l & E & _ & G). unfold flagOf. rewrite E. now apply G.
Qed.

Lemma flagOf_pend D st i X l0 k : St D st -> nth_error ff0 i = Some (X, l0) -> 1 <= k <= 6 ->
  flagOf (snd st) i k = false -> pend (X, k) /\ ~ In (X, k) D.
Proof.
  intros S H Hk Fl. pose proof (flagOf_iff _ _ _ _ _ _ S H Hk) as Q. rewrite Fl in Q. split.
  - exists l0. cbn. split; [eapply nth_error_In; eauto|]. split; [exact Hk|]. destruct (nth _ l0 false); [|reflexivity].
    exfalso. assert (false = true) by (apply Q; auto). discriminate.
  - intros A. assert (false = true) by (apply Q; auto). discriminate.
Qed.

(** One test. *)
Lemma test_step D st i X l0 k gb c ti Y m0 k' : St D st -> nth_error ff0 i = Some (X, l0) -> pend (X, k) ->
  (forall Y k' b', pend (Y, k') -> (Y, k') <> (X, k) -> blk geo Y b' -> (isNear c (centre b' k') = true <-> Mate (X, k) (Y, k'))) ->
  blk geo X gb -> nth_error ff0 ti = Some (Y, m0) -> 1 <= k' <= 6 ->
  exists D' st', testFace geo i X k c ti Y k' st = Some st' /\ St D' st' /\ incl D D' /\ (Mate (X, k) (Y, k') -> In (X, k) D').
Proof.
  intros S Hi Px NEAR Hgb Ht Hk'. assert (Hk : 1 <= k <= 6) by (destruct Px as (? & _ & ? & _); assumption).
  unfold testFace. destruct st as [m ff]. destruct (flagOf ff ti k') eqn:Fl.
  { exists D, (m, ff). split; [reflexivity|]. split; [exact S|]. split; [apply incl_refl|]. intros HM.
    apply (flagOf_iff _ _ _ _ _ _ S Ht Hk') in Fl. destruct (M1 _ _ HM) as (_ & Pq & _ & HM').
    destruct Fl as [Fl|Fl]; [|eapply s_mate; eauto]. destruct Pq as (l & Il & _ & El). cbn in Il, El.
    apply In_nth_error in Il as [j Ij]. assert (j = ti) by (eapply ff0_inj; eauto). subst j. congruence. }
  destruct (flagOf_pend _ _ _ _ _ _ S Ht Hk' Fl) as [PY NY].
  destruct ((X =? Y) && (k =? k')) eqn:EQ.
  { apply andb_true_iff in EQ as [E1 E2]. apply Z.eqb_eq in E1, E2. subst Y k'.
    exists D, (m, ff). split; [reflexivity|]. split; [exact S|]. split; [apply incl_refl|]. intros HM. destruct (M1 _ _ HM) as (_ & _ & Q & _). congruence. }
  assert (Ne : (Y, k') <> (X, k)).
  { intros Q. injection Q as -> ->. rewrite !Z.eqb_refl in EQ. discriminate. }
  destruct (Blk Y m0) as [[bY HbY] _]; [eapply nth_error_In; eauto|]. rewrite (getBlk_blk _ _ _ Wg HbY).
  pose proof (NEAR _ _ _ PY Ne HbY) as NR. destruct (isNear c (centre bY k')).
  2:{ exists D, (m, ff). split; [reflexivity|]. split; [exact S|]. split; [apply incl_refl|]. intros HM. apply NR in HM. discriminate. }
  assert (HM : Mate (X, k) (Y, k')) by (apply NR; reflexivity). clear NR.
  assert (HM' : Mate (Y, k') (X, k)) by (apply (M1 _ _ HM)).
  assert (NX : ~ In (X, k) D) by (intros A; apply NY; eapply s_mate; eauto).
  exists ((Y, k') :: (X, k) :: D). eexists. split; [reflexivity|]. split.
  2:{ split; [intros p Hp; right; right; exact Hp|]. intros _. right. now left. }
  destruct (relink_spec m X k (Some Y) (s_wf _ _ S) Hk) as (W1 & L1 & B1 & K1 & F1).
  destruct (relink_spec (updBlk X (updFace k (withNeighbor (Some Y))) m) Y k' (Some X) W1 Hk') as (W2 & L2 & B2 & K2 & F2).
  set (m1 := updBlk X (updFace k (withNeighbor (Some Y))) m) in *. set (m2 := updBlk Y (updFace k' (withNeighbor (Some X))) m1) in *.
  clearbody m1 m2.
  constructor; cbn [fst snd].
  - apply (setFlag_Sff _ _ _ _ m0); [|exact Ht|exact Hk']. apply (setFlag_Sff _ _ _ _ l0); [apply (s_ff _ _ S)|exact Hi|exact Hk].
  - exact W2.
  - pose proof (s_len _ _ S) as LL. cbn in LL. congruence.
  - intros Z1 b Hb. destruct (s_blk _ _ S _ _ Hb) as (b1 & H1 & E1 & E2 & E3 & E4). destruct (B1 _ _ H1) as (b2 & H2 & E5 & E6 & E7 & E8).
    destruct (B2 _ _ H2) as (b3 & H3 & E9 & E10 & E11 & E12). exists b3. split; [exact H3|]. repeat split; congruence.
  - intros Z1 k1 g F. destruct (s_fac _ _ S _ _ _ F) as (g' & F' & C). cbn [fst] in F'.
    destruct (pair_dec (Z1, k1) (X, k)) as [Q|N1].
    + injection Q as -> ->. destruct C as [[_ ->]|[C _]]; [|contradiction]. exists (withNeighbor (Some Y) g). split.
      * apply K2; [apply F1; exact F'|congruence].
      * right. split; [right; now left|]. exists Y, k'. auto.
    + destruct (pair_dec (Z1, k1) (Y, k')) as [Q|N2].
      * injection Q as -> ->. destruct C as [[_ ->]|[C _]]; [|contradiction]. exists (withNeighbor (Some X) g). split.
        -- apply F2. apply K1; [exact F'|congruence].
        -- right. split; [now left|]. exists X, k. auto.
      * exists g'. split; [apply K2; [apply K1; assumption|assumption]|].
        destruct C as [[C ->]|[C R]]; [left|right].
        -- split; [|reflexivity]. intros [A|[A|A]]; congruence.
        -- split; [right; right; exact C|exact R].
  - intros p [<-|[<-|A]]; [exact PY|exact Px|eapply s_pend; eauto].
  - intros p q [<-|[<-|A]] HH.
    + rewrite (M2 _ _ _ HH HM'). right. now left.
    + rewrite (M2 _ _ _ HH HM). now left.
    + right. right. eapply s_mate; eauto.
Qed.

Lemma nth_ff0 i X : nth_error (map fst ff0) i = Some X -> exists l, nth_error ff0 i = Some (X, l).
Proof.
  rewrite nth_error_map. destruct (nth_error ff0 i) as [[Y l]|]; [|discriminate]. cbn. intros H. injection H as ->. eauto.
Qed.

Lemma testAll_spec D st i X l0 k gb c : St D st -> nth_error ff0 i = Some (X, l0) -> pend (X, k) ->
  (forall Y k' b', pend (Y, k') -> (Y, k') <> (X, k) -> blk geo Y b' -> (isNear c (centre b' k') = true <-> Mate (X, k) (Y, k'))) ->
  blk geo X gb ->
  exists D' st', testAll geo (map fst ff0) i X k c st = Some st' /\ St D' st' /\ incl D D' /\ In (X, k) D'.
Proof.
  intros S Hi Px NEAR Hgb. unfold testAll.
  destruct (foldO_ind (fun ty st => foldO (fun k' st => testFace geo i X k c (fst ty) (snd ty) k' st) [1;2;3;4;5;6] st)
    (fun done st => exists D', St D' st /\ incl D D' /\ forall ty k', In ty done -> 1 <= k' <= 6 -> Mate (X, k) (snd ty, k') -> In (X, k) D')
    (enumerate (map fst ff0))) with (s := st) as (st' & E & D' & S' & I' & F').
  - intros done [ti Y] rest s Ed (D1 & S1 & I1 & F1). cbn [fst snd].
    assert (Ht : exists m0, nth_error ff0 ti = Some (Y, m0)).
    { apply nth_ff0. apply (enumerate_in (map fst ff0) (ti, Y)). rewrite Ed. apply in_or_app. right. now left. }
    destruct Ht as [m0 Ht].
    destruct (foldO_ind (fun k' st => testFace geo i X k c ti Y k' st)
      (fun done st => exists D', St D' st /\ incl D1 D' /\ forall k', In k' done -> Mate (X, k) (Y, k') -> In (X, k) D')
      [1;2;3;4;5;6]) with (s := s) as (s' & E & D' & S' & I' & F').
    + intros dn k' rs s2 E2 (D2 & S2 & I2 & F2).
      assert (Hk' : 1 <= k' <= 6). { apply six_in. unfold six. rewrite E2. apply in_or_app. right. now left. }
      destruct (test_step D2 s2 i X l0 k gb c ti Y m0 k' S2 Hi Px NEAR Hgb Ht Hk') as (D3 & s3 & E3 & S3 & I3 & F3).
      exists s3. split; [exact E3|]. exists D3. split; [exact S3|]. split; [eapply incl_tran; eauto|].
      intros kk Hkk HM. apply in_app_or in Hkk as [Hkk|[<-|[]]]; [apply I3; eapply F2; eauto|auto].
    + exists D1. split; [exact S1|]. split; [apply incl_refl|]. easy.
    + exists s'. split; [exact E|]. exists D'. split; [exact S'|]. split; [eapply incl_tran; eauto|].
      intros ty k' Hty Hk' HM. apply in_app_or in Hty as [Hty|[<-|[]]]; [apply I'; eapply F1; eauto|].
      apply (F' k'); [apply six_in; exact Hk'|exact HM].
  - exists D. split; [exact S|]. split; [apply incl_refl|]. easy.
  - exists D', st'. split; [exact E|]. split; [exact S'|]. split; [exact I'|].
    destruct (M3 _ Px) as [[Y k'] HM]. destruct (M1 _ _ HM) as (_ & (l & Il & Hk' & _) & _). cbn in Il, Hk'.
    apply In_nth_error in Il as [j Ij]. apply (F' (j, Y) k'); [|exact Hk'|exact HM].
    apply enumerate_in. cbn. apply (map_nth_error fst) in Ij. exact Ij.
Qed.

Lemma resolveFace_spec D st i X l0 k : St D st -> nth_error ff0 i = Some (X, l0) -> 1 <= k <= 6 ->
  exists D' st', resolveFace geo (map fst ff0) i X k st = Some st' /\ St D' st' /\ incl D D' /\ (pend (X, k) -> In (X, k) D').
Proof.
  intros S Hi Hk. destruct st as [m ff]. unfold resolveFace.
  destruct (Blk X l0) as [[bX HbX] _]; [eapply nth_error_In; eauto|].
  destruct (s_blk _ _ S _ _ HbX) as (b & Hb & _). cbn [fst] in Hb. pose proof (getBlk_blk _ _ _ (s_wf _ _ S) Hb) as GB. cbn [fst] in GB. rewrite GB.
  destruct (faceOf_ex bX k Hk (wf_len _ _ _ Wg HbX)) as [g Eg].
  assert (Fg : fac geo X k g) by (apply fac_faceOf; eauto).
  destruct (s_fac _ _ S _ _ _ Fg) as (g' & F' & C). cbn [fst] in F'.
  assert (Eg' : faceOf b k = Some g').
  { apply fac_faceOf in F' as (b' & Hb' & Q). cbn [fst] in *. rewrite (blk_fun _ _ _ _ Hb Hb'). exact Q. }
  rewrite Eg'. assert (T : bcType (topo g') = bcType (topo g) /\ forall q, moved g' q = moved g q).
  { destruct C as [[_ ->]|[_ (Y & k' & _ & ->)]]; split; reflexivity. }
  destruct T as [T1 T2]. rewrite T1.
  destruct (flagOf ff i k) eqn:Fl.
  { exists D, (m, ff). split; [destruct (_ && _); reflexivity|]. split; [exact S|]. split; [apply incl_refl|].
    intros (l & Il & _ & El). cbn in Il, El. apply In_nth_error in Il as [j Ij]. assert (j = i) by (eapply ff0_inj; eauto). subst j.
    apply (flagOf_iff _ _ _ _ _ _ S Hi Hk) in Fl. destruct Fl as [Fl|Fl]; [congruence|exact Fl]. }
  destruct (flagOf_pend _ _ _ _ _ _ S Hi Hk Fl) as [PX _].
  destruct (Near _ _ PX) as (g1 & gb & c & Fg1 & Hgb & TY & MV & NR). rewrite (fac_fun _ _ _ _ _ Fg1 Fg) in *.
  replace (negb (String.eqb (bcType (topo g)) "b0") && negb (isPeriodic (bcType (topo g)))) with false.
  2:{ destruct TY as [-> | ->]; [reflexivity|]. symmetry. apply andb_false_r. }
  rewrite (getBlk_blk _ _ _ Wg Hgb), T2, MV.
  destruct (testAll_spec D (m, ff) i X l0 k gb c S Hi PX NR Hgb) as (D' & st' & E & S' & I' & H).
  exists D', st'. auto.
Qed.

Lemma resolveBlock_spec D st ix : St D st -> In ix (enumerate (map fst ff0)) ->
  exists D' st', resolveBlock geo (map fst ff0) ix st = Some st' /\ St D' st' /\ incl D D' /\ forall k, pend (snd ix, k) -> In (snd ix, k) D'.
Proof.
  intros S Hin. destruct ix as [i X]. cbn [fst snd]. apply enumerate_in in Hin. cbn [fst snd] in Hin. destruct (nth_ff0 _ _ Hin) as [l0 Hi].
  unfold resolveBlock. cbn [fst snd]. destruct (s_ff _ _ S) as [_ SF]. destruct (SF _ _ _ Hi) as (l & E & L & Fk). rewrite E.
  destruct (forallb (fun x => x) l) eqn:All.
  - exists D, st. split; [reflexivity|]. split; [exact S|]. split; [apply incl_refl|].
    intros k (l1 & Il & Hk & El). cbn in Il, Hk, El. apply In_nth_error in Il as [j Ij]. assert (j = i) by (eapply ff0_inj; eauto). subst j.
    assert (l1 = l0) by congruence. subst l1. destruct (proj1 (Fk k Hk)) as [Q|Q]; [|congruence|exact Q].
    rewrite forallb_forall in All. apply All. apply nth_In. lia.
  - destruct (foldO_ind (fun k st => resolveFace geo (map fst ff0) i X k st)
      (fun done st => exists D', St D' st /\ incl D D' /\ forall k, In k done -> pend (X, k) -> In (X, k) D')
      [1;2;3;4;5;6]) with (s := st) as (s' & E' & D' & S' & I' & F').
    + intros dn k rs s2 E2 (D2 & S2 & I2 & F2).
      assert (Hk : 1 <= k <= 6). { apply six_in. unfold six. rewrite E2. apply in_or_app. right. now left. }
      destruct (resolveFace_spec D2 s2 i X l0 k S2 Hi Hk) as (D3 & s3 & E3 & S3 & I3 & F3).
      exists s3. split; [exact E3|]. exists D3. split; [exact S3|]. split; [eapply incl_tran; eauto|].
      intros kk Hkk HP. apply in_app_or in Hkk as [Hkk|[<-|[]]]; [apply I3; eapply F2; eauto|auto].
    + exists D. split; [exact S|]. split; [apply incl_refl|]. easy.
    + exists D', s'. split; [exact E'|]. split; [exact S'|]. split; [exact I'|]. intros k HP.
      apply F'; [|exact HP]. apply six_in. destruct HP as (? & _ & ? & _). assumption.
Qed.

Lemma findInterior_spec : exists m, findInterior geo ff0 = Some (m, []) /\ wfGrid m /\ length m = length geo /\
  (forall X b, blk geo X b -> exists b', blk m X b' /\ gshape b' = gshape b /\ gx b' = gx b /\ gy b' = gy b /\ gz b' = gz b) /\
  (forall X k g, fac geo X k g -> exists g', fac m X k g' /\
     (~ pend (X, k) -> g' = g) /\ (forall Y k', Mate (X, k) (Y, k') -> g' = withNeighbor (Some Y) g)).
Proof.
  unfold findInterior.
  destruct (foldO_ind (resolveBlock geo (map fst ff0))
    (fun done st => exists D', St D' st /\ forall ix k, In ix done -> pend (snd ix, k) -> In (snd ix, k) D')
    (enumerate (map fst ff0))) with (s := (geo, ff0)) as (st' & E & D & S & F).
  - intros dn ix rs s Ed (D1 & S1 & F1).
    destruct (resolveBlock_spec D1 s ix S1) as (D2 & s2 & E2 & S2 & I2 & F2); [rewrite Ed; apply in_or_app; right; now left|].
    exists s2. split; [exact E2|]. exists D2. split; [exact S2|]. intros iy k Hiy HP.
    apply in_app_or in Hiy as [Hiy|[<-|[]]]; [apply I2; eapply F1; eauto|auto].
  - exists []. split; [|easy]. constructor; cbn [fst snd]; auto.
    + split; [reflexivity|]. intros i X l0 H. exists l0. split; [exact H|]. split; [|cbn; tauto].
      apply (Blk X). eapply nth_error_In; eauto.
    + intros X b H. exists b. auto.
    + intros X k g H. exists g. split; [exact H|]. left. auto.
    + easy.
  - assert (AllP : forall p, pend p -> In p D).
    { intros [X k] HP. destruct HP as (l & Il & HP). cbn in Il. apply In_nth_error in Il as [j Ij].
      apply (F (j, X) k); [|exists l; cbn; split; [eapply nth_error_In; eauto|exact HP]]. apply enumerate_in. cbn. apply (map_nth_error fst) in Ij. exact Ij. }
    rewrite E. cbn [bindO]. exists (fst st'). split.
    + f_equal. f_equal. destruct (s_ff _ _ S) as [SL SF].
      assert (G : forall e, In e (snd st') -> negb (forallb (fun x => x) (snd e)) = false).
      { intros [X l] He. apply In_nth_error in He as [i Hi]. cbn [snd].
        destruct (nth_error ff0 i) as [[X0 l0]|] eqn:H0.
        2:{ apply nth_error_None in H0. assert (i < length (snd st'))%nat by (apply nth_error_Some; congruence). lia. }
        destruct (SF _ _ _ H0) as (l1 & E1 & L1 & F1). assert (X0 = X /\ l1 = l) as [-> ->] by (split; congruence).
        apply negb_false_iff. apply forallb_forall. intros x Hx. apply In_nth_error in Hx as [j Hj].
        assert (Lj : (j < 6)%nat) by (rewrite <- L1; apply nth_error_Some; congruence).
        assert (Q : nth (Z.to_nat (Z.of_nat j + 1 - 1)) l false = true).
        { apply F1; [lia|]. destruct (nth (Z.to_nat (Z.of_nat j + 1 - 1)) l0 false) eqn:Q0; [auto|]. right. apply AllP. exists l0. cbn [fst snd].
          split; [eapply nth_error_In; eauto|]. split; [lia|exact Q0]. }
        replace (Z.to_nat (Z.of_nat j + 1 - 1)) with j in Q by lia. rewrite (nth_error_nth _ _ _ Hj) in Q. exact Q. }
      clear - G. induction (snd st') as [|e t IH]; [reflexivity|]. cbn [filter]. rewrite (G e) by (left; reflexivity).
      apply IH. intros; apply G. now right.
    + split; [apply (s_wf _ _ S)|]. split; [apply (s_len _ _ S)|]. split; [apply (s_blk _ _ S)|].
      intros X k g Fg. destruct (s_fac _ _ S _ _ _ Fg) as (g' & F' & C). exists g'. split; [exact F'|]. split.
      * intros NP. destruct C as [[_ C]|[C _]]; [exact C|]. exfalso. apply NP. eapply s_pend; eauto.
      * intros Y k' HM. destruct C as [[C _]|[_ (Y' & k'' & HM' & ->)]].
        -- exfalso. apply C, AllP. apply (M1 _ _ HM).
        -- pose proof (M2 _ _ _ HM HM') as Q. injection Q as -> ->. reflexivity.
Qed.
End Find.
