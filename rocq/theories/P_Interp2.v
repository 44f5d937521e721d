(** C115: the interpolation utility as a whole. *)
From Coq Require Import Reals ZArith List Bool Lra Lia Arith.
From Verif Require Import M_Procs M_Interp S_Interp P_Interp.
Import ListNotations.
Open Scope R_scope.

Lemma mapM_nth {A B} (f : A -> option B) l : forall r, mapM f l = Some r -> List.length r = List.length l /\ forall k b, nth_error r k = Some b -> exists a, nth_error l k = Some a /\ f a = Some b.
Proof.
  induction l as [|x l IH]; intros r H; cbn [mapM] in H; [assert (r = []) as -> by congruence; split; [reflexivity | intros [|k] b Q; discriminate]|].
  destruct (f x) as [y|] eqn:Ey; [|discriminate]. destruct (mapM f l) as [r'|]; [|discriminate]. assert (r = y :: r') as -> by (cbn in H; congruence). destruct (IH r' eq_refl) as [L P].
  split; [cbn [List.length]; now rewrite L|]. intros [|k] b Q; cbn [nth_error] in *; [exists x; split; congruence | now apply P].
Qed.
Lemma nth_combine {A B} (l1 : list A) (l2 : list B) : forall k a b, nth_error (combine l1 l2) k = Some (a, b) -> nth_error l1 k = Some a /\ nth_error l2 k = Some b.
Proof. revert l2. induction l1 as [|x l1 IH]; intros [|y l2] [|k] a b H; cbn in *; try discriminate; [split; congruence | now apply IH]. Qed.
Lemma nth_combine_some {A B} (l1 : list A) (l2 : list B) : forall k a b, nth_error l1 k = Some a -> nth_error l2 k = Some b -> nth_error (combine l1 l2) k = Some (a, b).
Proof. revert l2. induction l1 as [|x l1 IH]; intros [|y l2] [|k] a b H1 H2; cbn in *; try discriminate; [congruence | now apply IH]. Qed.
Lemma within_incl from from' i x : incl from from' -> withinSource from i x -> withinSource from' i x.
Proof. intros I (lo & hi & (b & v & A & B & C) & (b' & v' & A' & B' & C') & D). exists lo, hi. split; [exists b, v; split; [now apply I | now split]|]. split; [exists b', v'; split; [now apply I | now split] | exact D]. Qed.

(* what the utility did to target block k before the species were normalised *)
Lemma interpolate_block interp inHull verbose ns mbFrom mbTo out k q' : interpolate interp inHull verbose ns mbFrom mbTo = Some out -> nth_error out k = Some q' ->
  exists p to q0 q src, nth_error mbTo k = Some ((p, to), q0) /\ src <> [] /\ incl src (map snd mbFrom) /\ blocksToBlock (interp k) src q0 = Some q /\
    q' = (if Nat.ltb 1 ns then normalizeSpecies (S (List.length to)) q else q).
Proof.
  unfold interpolate. cbv zeta. set (bd := findBounds _ _ _ _). destruct (existsb isNil bd) eqn:En; [discriminate|].
  destruct (mapM (fun ns => mapM _ ns) bd) as [srcs|] eqn:Es; [|discriminate]. destruct (mapM _ (combine (seq 0 (List.length srcs)) (combine srcs mbTo))) as [o|] eqn:Eo; [|discriminate].
  intros H Hk. destruct (mapM_nth _ _ _ Eo) as [_ Po].
  assert (X : exists q p to q0, nth_error o k = Some q /\ nth_error mbTo k = Some ((p, to), q0) /\ q' = (if Nat.ltb 1 ns then normalizeSpecies (S (List.length to)) q else q)).
  { destruct (Nat.ltb 1 ns).
    - assert (out = map (fun '(q, (_, to, _)) => normalizeSpecies (S (List.length to)) q) (combine o mbTo)) as -> by congruence. rewrite nth_error_map in Hk. destruct (nth_error (combine o mbTo) k) as [[q [[p to] q0]]|] eqn:Ec; [|discriminate].
      apply nth_combine in Ec. destruct Ec as [E1 E2]. cbn [option_map] in Hk. exists q, p, to, q0. repeat split; try assumption. congruence.
    - assert (out = o) as -> by congruence. destruct (Po k q' Hk) as ([kk [src [[p to] q0]]] & Ek & _). apply nth_combine in Ek. destruct Ek as [_ Ek]. apply nth_combine in Ek. destruct Ek as [_ Ek]. exists q', p, to, q0. now repeat split. }
  destruct X as (q & p & to & q0 & Eq & Em & ->). destruct (Po k q Eq) as ([kk [src [[p' to'] q0']]] & Ek & Eb). apply nth_combine in Ek. destruct Ek as [Ekk Ek]. apply nth_combine in Ek. destruct Ek as [Esrc Em'].
  rewrite Em in Em'. assert (q0' = q0) as -> by congruence.
  assert (kk = k) as ->. { assert (k < List.length (seq 0 (List.length srcs)))%nat by (apply nth_error_Some; congruence). rewrite seq_length in H0. rewrite (nth_error_nth' _ 0%nat) in Ekk by (rewrite seq_length; exact H0). rewrite seq_nth in Ekk by exact H0. cbn in Ekk. congruence. }
  exists p, to, q0, q, src. split; [exact Em|]. destruct (mapM_nth _ _ _ Es) as [_ Ps]. destruct (Ps k src Esrc) as (nums & Enum & Ef). split; [|split; [|split; [exact Eb | reflexivity]]].
  - intros ->. assert (nums = []) as -> by (destruct nums as [|n nums]; [reflexivity|]; cbn [mapM] in Ef; destruct (option_map snd _); [destruct (mapM _ nums); discriminate | discriminate]).
    assert (existsb isNil bd = true) by (apply existsb_exists; exists []; split; [eapply nth_error_In; exact Enum | reflexivity]). congruence.
  - intros b Hb. destruct (proj1 (mapM_spec _ _ _ Ef) b Hb) as (n & _ & E). destruct (find _ mbFrom) as [[sb bq]|] eqn:Efi; [|discriminate]. cbn in E. assert (bq = b) as -> by congruence. apply find_some in Efi. destruct Efi as [Efi _].
    apply in_map_iff. exists (sb, b). split; [reflexivity | exact Efi].
Qed.
(** C115: pressure, velocity and temperature (all stored variables if there is a single species) stay within the range of the source, whatever the interpolants and the search *)
Theorem C115_flow_range : forall interp inHull verbose ns mbFrom mbTo out k q' i v x nv, interpolate interp inHull verbose ns mbFrom mbTo = Some out -> (forall b, In b mbFrom -> List.length (snd b) = nv) -> (i < nv)%nat ->
  (i < 5 \/ ns <= 1)%nat -> nth_error out k = Some q' -> nth_error q' i = Some v -> In x v -> withinSource (map snd mbFrom) i x.
Proof.
  intros interp inHull verbose ns mbFrom mbTo out k q' i v x nv H Hnv Hi Hc Hk Hv Hx. destruct (interpolate_block _ _ _ _ _ _ _ _ _ H Hk) as (p & to & q0 & q & src & _ & Hne & Inc & Eb & Eq).
  assert (Hv' : nth_error q i = Some v).
  { rewrite Eq in Hv. destruct (Nat.ltb 1 ns) eqn:El; [|exact Hv]. apply Nat.ltb_lt in El. assert (L5 : (i < 5)%nat) by lia. unfold normalizeSpecies in Hv.
    assert (Lq : (i < List.length q)%nat).
    { assert (Q : nth_error (firstn 5 q ++ map (fun v => map (fun '(x, t) => if Rlt_dec 1 t then x / t else x) (combine v (sums (S (List.length to)) (skipn 5 q)))) (skipn 5 q)) i <> None) by (unfold values in *; congruence).
      apply nth_error_Some in Q. rewrite app_length, map_length, skipn_length, firstn_length in Q. lia. }
    rewrite nth_error_app1 in Hv by (rewrite firstn_length; lia). rewrite <- Hv. clear - L5. revert q. do 5 (destruct i as [|i]; [intros [|? q]; [reflexivity|]; try reflexivity; do 5 (destruct q as [|? q]; [reflexivity|]; try reflexivity)|]). lia. }
  destruct src as [|b0 src]; [congruence|]. apply (within_incl (b0 :: src)); [exact Inc|].
  apply (C81_no_new_extrema (interp k) (b0 :: src) q0 q b0 eq_refl Eb i v x); try assumption.
  assert (Ib : In b0 (map snd mbFrom)) by (apply Inc; now left). apply in_map_iff in Ib. destruct Ib as (sb & <- & Ib). rewrite (Hnv sb Ib). exact Hi.
Qed.
(** C115: and no cell ends with stored mass fractions summing to more than one *)
Lemma sums_nth n sp j : (forall v, In v sp -> List.length v = n) -> (j < n)%nat -> nth_error (sums n sp) j = Some (fold_right Rplus 0 (map (fun v => nth j v 0) sp)) /\ List.length (sums n sp) = n.
Proof.
  induction sp as [|v sp IH]; intros H Hj; cbn [sums fold_right map].
  - split; [rewrite (nth_error_nth' _ 0) by (rewrite repeat_length; exact Hj); now rewrite nth_repeat | apply repeat_length].
  - destruct IH as [A B]; [intros; apply H; now right | exact Hj|]. change (fold_right addCols (repeat 0 n) sp) with (sums n sp). assert (Lv : List.length v = n) by (apply H; now left). unfold addCols. split.
    + rewrite nth_error_map. rewrite (nth_combine_some v (sums n sp) j (nth j v 0) _ ltac:(apply nth_error_nth'; lia) A). reflexivity.
    + rewrite map_length, combine_length, B, Lv. apply Nat.min_id.
Qed.
Lemma normalized_sum n q j : (forall v, In v q -> List.length v = n) -> (j < n)%nat -> fold_right Rplus 0 (map (fun v => nth j v 0) (skipn 5 (normalizeSpecies n q))) <= 1.
Proof.
  intros H Hj. unfold normalizeSpecies. cbv zeta. set (sp := skipn 5 q). assert (Hs : forall v, In v sp -> List.length v = n) by (intros v Hv; apply H; rewrite <- (firstn_skipn 5 q); apply in_or_app; now right).
  assert (E : skipn 5 (firstn 5 q ++ map (fun v : values => map (fun '(x, t) => if Rlt_dec 1 t then x / t else x) (combine v (sums n sp))) sp) = map (fun v : values => map (fun '(x, t) => if Rlt_dec 1 t then x / t else x) (combine v (sums n sp))) sp).
  { unfold sp. clear. do 5 (destruct q as [|? q]; [reflexivity|]). reflexivity. }
  match goal with |- fold_right _ _ (map _ ?XX) <= _ => change XX with (skipn 5 (firstn 5 q ++ map (fun v : values => map (fun '(x, t) => if Rlt_dec 1 t then x / t else x) (combine v (sums n sp))) sp)) end.
  rewrite E, map_map. destruct (sums_nth n sp j Hs Hj) as [A B]. set (S := fold_right Rplus 0 (map (fun v => nth j v 0) sp)) in *.
  assert (F : forall l : list values, (forall v, In v l -> List.length v = n) -> fold_right Rplus 0 (map (fun v : values => nth j (map (fun '(x, t) => if Rlt_dec 1 t then x / t else x) (combine v (sums n sp))) 0) l) = (if Rlt_dec 1 S then fold_right Rplus 0 (map (fun v => nth j v 0) l) / S else fold_right Rplus 0 (map (fun v => nth j v 0) l))).
  { induction l as [|v l IH]; intros Hl; cbn [map fold_right]; [destruct (Rlt_dec 1 S); [field; lra | reflexivity]|]. rewrite IH by (intros; apply Hl; now right). assert (Lv : List.length v = n) by (apply Hl; now left).
    assert (N : nth_error (map (fun '(x, t) => if Rlt_dec 1 t then x / t else x) (combine v (sums n sp))) j = Some (if Rlt_dec 1 S then nth j v 0 / S else nth j v 0)).
    { rewrite nth_error_map. rewrite (nth_combine_some v (sums n sp) j (nth j v 0) S ltac:(apply nth_error_nth'; lia) A). reflexivity. }
    rewrite (nth_error_nth _ _ _ N). destruct (Rlt_dec 1 S); [field; lra | reflexivity]. }
  rewrite F by exact Hs. fold S. destruct (Rlt_dec 1 S); [right; field; lra | lra].
Qed.
Lemma interp_lengths interp src q0 q n : blocksToBlock interp src q0 = Some q -> (forall v, In v q0 -> List.length v = n) -> forall v, In v q -> List.length v = n.
Proof.
  intros H L v Hv. unfold blocksToBlock in H. destruct src as [|b src]; [discriminate|]. destruct (interpVars_spec _ _ _ _ _ _ H) as (A & B & _). apply In_nth_error in Hv. destruct Hv as [i Hi].
  destruct (Nat.lt_ge_cases i (List.length b)) as [Hlt | Hge].
  - destruct (A i v Hi Hlt) as (s & t & _ & Ht & V). destruct (interpVar_spec _ _ _ _ V) as (Lv & _ & _). rewrite Lv. apply L. eapply nth_error_In. exact Ht.
  - rewrite B in Hi by exact Hge. apply L. eapply nth_error_In. exact Hi.
Qed.
Theorem C115_species_sum : forall interp inHull verbose ns mbFrom mbTo out k q' p to q0 j, interpolate interp inHull verbose ns mbFrom mbTo = Some out -> (1 < ns)%nat ->
  nth_error out k = Some q' -> nth_error mbTo k = Some ((p, to), q0) -> (forall v, In v q0 -> List.length v = S (List.length to)) -> (j < S (List.length to))%nat ->
  fold_right Rplus 0 (map (fun v => nth j v 0) (skipn 5 q')) <= 1.
Proof.
  intros interp inHull verbose ns mbFrom mbTo out k q' p to q0 j H Hns Hk Hm L Hj. destruct (interpolate_block _ _ _ _ _ _ _ _ _ H Hk) as (p' & to' & q0' & q & src & Hm' & _ & _ & Eb & ->).
  rewrite Hm in Hm'. assert (to' = to) as -> by congruence. assert (q0' = q0) as -> by congruence. assert (Nat.ltb 1 ns = true) as -> by now apply Nat.ltb_lt.
  apply normalized_sum; [|exact Hj]. exact (interp_lengths _ _ _ _ _ Eb L).
Qed.
(** C115: a target block with no cell inside any source block makes the utility fail, and only cells covered in the sense of C114 are relied on *)
Theorem C115_outside_raises : forall interp inHull verbose ns mbFrom mbTo k p to q0, nth_error mbTo k = Some ((p, to), q0) ->
  (forall b x, In b mbFrom -> In x (p :: to) -> inHull (fst b) x = false) -> interpolate interp inHull verbose ns mbFrom mbTo = None.
Proof.
  intros interp inHull verbose ns mbFrom mbTo k p to q0 Hk Hout. unfold interpolate. cbv zeta. set (bd := findBounds _ _ _ _).
  assert (En : existsb isNil bd = true).
  { apply existsb_exists. exists []. split; [|reflexivity]. unfold bd, findBounds. apply in_map_iff. exists (p, to). split.
    - destruct (search inHull verbose p to (map fst mbFrom) (repeat false (S (List.length to))) []) as [|n l] eqn:E; [reflexivity|].
      assert (I : In n (search inHull verbose p to (map fst mbFrom) (repeat false (S (List.length to))) [])) by (rewrite E; now left). apply search_hits in I. destruct I as [[] | (b & Hb & _ & x & Hx & Hh)].
      apply in_map_iff in Hb. destruct Hb as (b0 & <- & Hb). rewrite (Hout b0 x Hb Hx) in Hh. discriminate.
    - apply in_map_iff. exists ((p, to), q0). split; [reflexivity | eapply nth_error_In; exact Hk]. }
  rewrite En. reflexivity.
Qed.
(** C115 refuted for the species: normalising after the clipping creates new extrema.  A uniform mass fraction 1/2 becomes 1/3 (the interpolant is linear, with weights 3/2 and 3/2) *)
Definition exFrom : list (sblock * blkq) := [(exBlk, [[1; 1]; [0; 0]; [0; 0]; [0; 0]; [1; 1]; [1/2; 1/2]; [1/2; 0]; [0; 1/2]])].
Definition exTo : list (pt * list pt * blkq) := [(((1/2, 1/2, 1/2), []), [[0]; [0]; [0]; [0]; [0]; [0]; [0]; [0]])].
Definition exInterp (v : values) : values := match v with [a; b] => [3/2 * a + 3/2 * b] | _ => [] end.
Theorem C115_species_range_refuted :
  ~ (forall interp inHull verbose ns mbFrom mbTo out k q' i v x nv, interpolate interp inHull verbose ns mbFrom mbTo = Some out -> (forall b, In b mbFrom -> List.length (snd b) = nv) -> (i < nv)%nat ->
       nth_error out k = Some q' -> nth_error q' i = Some v -> In x v -> withinSource (map snd mbFrom) i x).
Proof.
  intros P.
  assert (B : findBounds exHull true [exBlk] [((1/2, 1/2, 1/2), [])] = [[7%Z]]).
  { unfold findBounds. cbn [map search]. rewrite (not_skipped exHull true exBlk (1/2, 1/2, 1/2) [] (1/2, 1/2, 1/2)); [|apply C114_example | now left | apply C114_example].
    cbv zeta. cbn [map]. rewrite (proj2 C114_example). cbn [existsb orb app negb andb]. reflexivity. }
  assert (V : forall a b c : R, exists x, interpVar exInterp (@cons values (@cons R a (@cons R b nil)) nil) (@cons R c nil) = Some [x] /\ (a = 1/2 -> b = 1/2 -> x = 1/2) /\ (a = 1/2 -> b = 0 -> x = 1/2) /\ (a = 0 -> b = 1/2 -> x = 1/2)).
  { intros a b c. unfold interpVar. cbn [concat app exInterp]. unfold whereAbove, whereBelow, maxOf, minOf. cbn [map fold_left List.length Nat.eqb]. cbv zeta. eexists. split; [reflexivity|].
    repeat split; intros -> ->; unfold Rmax, Rmin; repeat match goal with |- context [Rle_dec ?x ?y] => destruct (Rle_dec x y); try lra end; repeat match goal with |- context [Rlt_dec ?x ?y] => destruct (Rlt_dec x y); try lra end; repeat match goal with H : context [Rlt_dec ?x ?y] |- _ => destruct (Rlt_dec x y); try lra end. }
  assert (E : exists out q', interpolate (fun _ => exInterp) exHull true 4 exFrom exTo = Some out /\ nth_error out 0 = Some q' /\ nth_error q' 5 = Some [1/3]).
  { unfold interpolate. cbv zeta. change (map fst exFrom) with [exBlk]. change (map fst exTo) with [((1/2, 1/2, 1/2), @nil pt)]. rewrite B. cbn [existsb isNil orb].
    cbn [mapM]. unfold exFrom at 1. cbn [find fst exBlk sb_num Z.eqb Pos.eqb option_map snd]. cbn [List.length seq]. unfold exTo at 1. cbn [combine mapM]. unfold blocksToBlock. cbn [List.length interpVars mapM nth_error option_map].
    destruct (V 1 1 0) as (x0 & -> & _). destruct (V 0 0 0) as (x1 & -> & _). destruct (V (1/2) (1/2) 0) as (x5 & -> & A5 & _). destruct (V (1/2) 0 0) as (x6 & -> & _ & A6 & _). destruct (V 0 (1/2) 0) as (x7 & -> & _ & _ & A7).
    rewrite A5, A6, A7 by reflexivity. cbn [option_map]. change (Nat.ltb 1 4) with true. cbv iota. eexists. eexists. split; [reflexivity|]. unfold exTo. cbn [combine map List.length nth_error]. split; [reflexivity|].
    unfold normalizeSpecies. cbn [skipn firstn app map combine nth_error sums fold_right addCols repeat]. do 2 f_equal. destruct (Rlt_dec 1 (1/2 + (1/2 + (1/2 + 0)))); [field | lra]. }
  destruct E as (out & q' & E & E0 & E5). specialize (P (fun _ => exInterp) exHull true 4%nat exFrom exTo out 0%nat q' 5%nat [1/3] (1/3) 8%nat E).
  destruct P as (lo & hi & (b & vals & Hb & Hv & Hl) & _ & Hr); [intros b [<- | []]; reflexivity | lia | exact E0 | exact E5 | now left |].
  destruct Hb as [<- | []]. cbn in Hv. assert (vals = [1/2; 1/2]) as -> by congruence. destruct Hl as [<- | [<- | []]]; lra.
Qed.
Print Assumptions C115_flow_range. Print Assumptions C115_species_sum. Print Assumptions C115_outside_raises. Print Assumptions C115_species_range_refuted.
