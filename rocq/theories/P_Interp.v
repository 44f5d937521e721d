(** C81: interpolation creates no new extrema; C114: the source blocks used cover every target point that any source block covers. *)
From Coq Require Import Reals ZArith List Bool Lra Lia Arith.
From Verif Require Import M_Procs M_Interp S_Interp.
Import ListNotations.
Open Scope R_scope.

Lemma maxOf_spec l : forall x, (In (maxOf x l) (x :: l)) /\ (forall y, In y (x :: l) -> y <= maxOf x l).
Proof.
  unfold maxOf. induction l as [|a l IH]; intros x; cbn [fold_left]; [split; [now left | intros y [->|[]]; lra]|].
  destruct (IH (Rmax x a)) as [A B]. split.
  - destruct A as [A | A]; [rewrite <- A; unfold Rmax; destruct (Rle_dec x a); [right; now left | now left] | right; now right].
  - intros y [-> | [-> | Hy]]; [apply Rle_trans with (Rmax y a); [apply Rmax_l | apply B; now left] | apply Rle_trans with (Rmax x y); [apply Rmax_r | apply B; now left] | apply B; now right].
Qed.
Lemma minOf_spec l : forall x, (In (minOf x l) (x :: l)) /\ (forall y, In y (x :: l) -> minOf x l <= y).
Proof.
  unfold minOf. induction l as [|a l IH]; intros x; cbn [fold_left]; [split; [now left | intros y [->|[]]; lra]|].
  destruct (IH (Rmin x a)) as [A B]. split.
  - destruct A as [A | A]; [rewrite <- A; unfold Rmin; destruct (Rle_dec x a); [now left | right; now left] | right; now right].
  - intros y [-> | [-> | Hy]]; [apply Rle_trans with (Rmin y a); [apply B; now left | apply Rmin_l] | apply Rle_trans with (Rmin x y); [apply B; now left | apply Rmin_r] | apply B; now right].
Qed.
Lemma mapM_spec {A B} (f : A -> option B) l : forall r, mapM f l = Some r -> (forall b, In b r -> exists a, In a l /\ f a = Some b) /\ (forall a, In a l -> exists b, In b r /\ f a = Some b).
Proof.
  induction l as [|x l IH]; intros r H; cbn [mapM] in H; [assert (r = []) as -> by congruence; split; [intros b [] | intros a []]|].
  destruct (f x) as [y|] eqn:Ey; [|discriminate]. destruct (mapM f l) as [r'|]; [|discriminate]. assert (r = y :: r') as -> by (cbn in H; congruence). destruct (IH r' eq_refl) as [P Q]. split.
  - intros b [<- | Hb]; [exists x; split; [now left | exact Ey]|]. destruct (P b Hb) as (a & Ha & E). exists a. split; [now right | exact E].
  - intros a [-> | Ha]; [exists y; split; [now left | exact Ey]|]. destruct (Q a Ha) as (b & Hb & E). exists b. split; [now right | exact E].
Qed.
(* one variable *)
Lemma interpVar_spec interp from to v : interpVar interp from to = Some v ->
  List.length v = List.length to /\ List.length (interp (concat from)) = List.length to /\
  (forall k y, nth_error (interp (concat from)) k = Some y -> exists x, nth_error v k = Some x /\
     (exists lo hi, In lo (concat from) /\ In hi (concat from) /\ lo <= x <= hi) /\ ((exists lo hi, In lo (concat from) /\ In hi (concat from) /\ lo <= y <= hi) -> x = y)).
Proof.
  unfold interpVar. destruct (concat from) as [|x0 l]; [discriminate|]. cbv zeta. destruct (Nat.eqb _ _) eqn:E; [|discriminate]. intros H.
  set (w := interp (x0 :: l)) in *. assert (V : v = whereBelow (minOf x0 l) (whereAbove (maxOf x0 l) w)) by congruence. clear H. apply Nat.eqb_eq in E.
  assert (Lw : List.length w = List.length to) by (rewrite <- E; unfold whereBelow, whereAbove; now rewrite !map_length). split; [congruence|]. split; [exact Lw|].
  destruct (maxOf_spec l x0) as [MI MB]. destruct (minOf_spec l x0) as [NI NB].
  intros k y Hy. subst v. unfold whereBelow, whereAbove. rewrite map_map, nth_error_map, Hy. cbn [option_map]. eexists. split; [reflexivity|].
  assert (minOf x0 l <= maxOf x0 l) by (apply MB; exact NI).
  split.
  - exists (minOf x0 l), (maxOf x0 l). split; [exact NI|]. split; [exact MI|]. destruct (Rlt_dec (maxOf x0 l) y); destruct (Rlt_dec _ (minOf x0 l)); lra.
  - intros (a & b & Ia & Ib & Hab). assert (b <= maxOf x0 l) by now apply MB. assert (minOf x0 l <= a) by now apply NB.
    destruct (Rlt_dec (maxOf x0 l) y); [lra|]. destruct (Rlt_dec y (minOf x0 l)); lra.
Qed.
Lemma in_concat_source from i src y : mapM (fun b => nth_error b i) from = Some src -> In y (concat src) -> sourceHas from i y.
Proof.
  intros M H. apply in_concat in H. destruct H as (vals & Hv & Hy). destruct (proj1 (mapM_spec _ _ _ M) vals Hv) as (b & Hb & E). exists b, vals. now repeat split.
Qed.
Lemma source_in_concat from i src y : mapM (fun b => nth_error b i) from = Some src -> sourceHas from i y -> In y (concat src).
Proof.
  intros M (b & vals & Hb & E & Hy). destruct (proj2 (mapM_spec _ _ _ M) b Hb) as (v & Hv & E'). rewrite E in E'. assert (vals = v) as <- by congruence. apply in_concat. now exists vals.
Qed.
Lemma interpVars_spec interp from : forall n i to out, interpVars interp from n i to = Some out ->
  (forall j v, nth_error out j = Some v -> (j < n)%nat -> exists src t, mapM (fun b => nth_error b (i + j)) from = Some src /\ nth_error to j = Some t /\ interpVar interp src t = Some v) /\
  (forall j, (n <= j)%nat -> nth_error out j = nth_error to j) /\ List.length out = List.length to.
Proof.
  induction n as [|n IH]; intros i to out H; cbn [interpVars] in H; [assert (out = to) as -> by congruence; repeat split; intros; lia|].
  destruct to as [|t r]; [discriminate|]. destruct (mapM (fun b => nth_error b i) from) as [src|] eqn:EM; [|discriminate]. destruct (interpVar interp src t) as [v|] eqn:EV; [|discriminate].
  destruct (interpVars interp from n (S i) r) as [o|] eqn:EO; [|discriminate]. assert (out = v :: o) as -> by (cbn in H; congruence). destruct (IH _ _ _ EO) as (A & B & C). repeat split.
  - intros [|j] w Hw Hj; cbn [nth_error] in *; [exists src, t; rewrite Nat.add_0_r; assert (w = v) as -> by congruence; now repeat split|].
    destruct (A j w Hw ltac:(lia)) as (src' & t' & X & Y & Z). exists src', t'. replace (i + S j)%nat with (S i + j)%nat by lia. now repeat split.
  - intros [|j] Hj; [lia|]. cbn [nth_error]. apply B. lia.
  - cbn [List.length]. now rewrite C.
Qed.
(** C81: whatever the interpolant, every interpolated value lies between two values of the same variable in the source blocks *)
Theorem C81_no_new_extrema : forall interp from to out b0, hd_error from = Some b0 -> blocksToBlock interp from to = Some out ->
  forall i v x, (i < List.length b0)%nat -> nth_error out i = Some v -> In x v -> withinSource from i x.
Proof.
  intros interp from to out b0 Hd H i v x Hi Hv Hx. unfold blocksToBlock in H. destruct from as [|b from]; [discriminate|]. cbn in Hd. assert (b = b0) as -> by congruence.
  destruct (interpVars_spec _ _ _ _ _ _ H) as (A & _ & _). destruct (A i v Hv Hi) as (src & t & M & _ & V). cbn [plus] in M.
  destruct (interpVar_spec _ _ _ _ V) as (L1 & L2 & P). apply In_nth_error in Hx. destruct Hx as [k Hk].
  assert (Hlt : (k < List.length v)%nat) by (apply nth_error_Some; congruence).
  destruct (nth_error (interp (concat src)) k) as [y|] eqn:Ey; [|apply nth_error_None in Ey; lia]. destruct (P k y Ey) as (x' & Ex & (lo & hi & Il & Ih & B) & _). rewrite Hk in Ex. assert (x = x') as <- by congruence.
  exists lo, hi. split; [exact (in_concat_source _ _ _ _ M Il)|]. split; [exact (in_concat_source _ _ _ _ M Ih) | exact B].
Qed.
(** C81: and a value the interpolant puts between two source values is not altered; other variables of the target are not touched *)
Theorem C81_inside_kept : forall interp from to out b0, hd_error from = Some b0 -> blocksToBlock interp from to = Some out ->
  (forall i v, (i < List.length b0)%nat -> nth_error out i = Some v ->
     exists src, mapM (fun b => nth_error b i) from = Some src /\ List.length (interp (concat src)) = List.length v /\
       forall k y, nth_error (interp (concat src)) k = Some y -> withinSource from i y -> nth_error v k = Some y) /\
  (forall i, (List.length b0 <= i)%nat -> nth_error out i = nth_error to i).
Proof.
  intros interp from to out b0 Hd H. unfold blocksToBlock in H. destruct from as [|b from]; [discriminate|]. cbn in Hd. assert (b = b0) as -> by congruence.
  destruct (interpVars_spec _ _ _ _ _ _ H) as (A & B & _). split; [|exact B]. intros i v Hi Hv. destruct (A i v Hv Hi) as (src & t & M & _ & V). cbn [plus] in M. exists src. split; [exact M|].
  destruct (interpVar_spec _ _ _ _ V) as (L1 & L2 & P). split; [congruence|]. intros k y Ey (lo & hi & Sl & Sh & Bd). destruct (P k y Ey) as (x & Ex & _ & Keep). rewrite Ex. f_equal. apply Keep.
  exists lo, hi. split; [exact (source_in_concat _ _ _ _ M Sl)|]. split; [exact (source_in_concat _ _ _ _ M Sh) | exact Bd].
Qed.
(** C81: so a uniform source gives a uniform target, whatever the interpolant *)
Theorem C81_uniform : forall interp from to out b0 i v c, hd_error from = Some b0 -> blocksToBlock interp from to = Some out -> (i < List.length b0)%nat -> nth_error out i = Some v ->
  (forall y, sourceHas from i y -> y = c) -> forall x, In x v -> x = c.
Proof.
  intros interp from to out b0 i v c Hd H Hi Hv U x Hx. destruct (C81_no_new_extrema _ _ _ _ _ Hd H i v x Hi Hv Hx) as (lo & hi & A & B & C). rewrite (U lo A), (U hi B) in C. lra.
Qed.
(** two blocks, two variables, an interpolant that overshoots *)
Example C81_example : exists out, blocksToBlock (fun _ => [5; 15/10; -1]) [[[1; 2]; [10; 20]]; [[3]; [30]]] [[0; 0; 0]; [0; 0; 0]] = Some out /\ nth_error out 0 = Some [3; 15/10; 1].
Proof.
  unfold blocksToBlock. cbn [List.length interpVars mapM nth_error option_map]. unfold interpVar. cbn [concat app]. unfold maxOf, minOf, whereAbove, whereBelow. cbn [fold_left map List.length Nat.eqb].
  eexists. split; [reflexivity|]. cbn [nth_error]. do 2 f_equal.
  - assert (E1 : Rmax (Rmax 1 2) 3 = 3) by (rewrite (Rmax_right 1 2), Rmax_right; lra). assert (E2 : Rmin (Rmin 1 2) 3 = 1) by (rewrite (Rmin_left 1 2), Rmin_left; lra). rewrite E1, E2. destruct (Rlt_dec 3 5); [|lra]. destruct (Rlt_dec 3 1); lra.
  - assert (E1 : Rmax (Rmax 1 2) 3 = 3) by (rewrite (Rmax_right 1 2), Rmax_right; lra). assert (E2 : Rmin (Rmin 1 2) 3 = 1) by (rewrite (Rmin_left 1 2), Rmin_left; lra). rewrite E1, E2.
    destruct (Rlt_dec 3 (15/10)); [lra|]. destruct (Rlt_dec (15/10) 1); [lra|]. f_equal. destruct (Rlt_dec 3 (-1)); [lra|]. destruct (Rlt_dec (-1) 1); [reflexivity | lra].
Qed.

(** ** findBounds *)
Definition sound (inHull : sblock -> pt -> bool) (b : sblock) : Prop :=
  forall x, inHull b x = true -> forall f, In f [px; py; pz] -> exists u v, In u (sb_all b) /\ In v (sb_all b) /\ f u <= f x <= f v.
Lemma lo_le f p l x : In x (p :: l) -> lo f p l <= f x.
Proof. intros H. apply (proj2 (minOf_spec (map f l) (f p))). change (f p :: map f l) with (map f (p :: l)). now apply in_map. Qed.
Lemma hi_ge f p l x : In x (p :: l) -> f x <= hi f p l.
Proof. intros H. apply (proj2 (maxOf_spec (map f l) (f p))). change (f p :: map f l) with (map f (p :: l)). now apply in_map. Qed.
Lemma not_skipped inHull verbose b q to x : sound inHull b -> In x (q :: to) -> inHull b x = true -> skipped verbose (sb_p b) (sb_pts b) q to = false.
Proof.
  intros S Hx H. assert (G : forall f, In f [px; py; pz] -> gtb (lo f (sb_p b) (sb_pts b)) (hi f q to) = false /\ gtb (lo f q to) (hi f (sb_p b) (sb_pts b)) = false).
  { intros f Hf. destruct (S x H f Hf) as (u & v & Iu & Iv & B). assert (A1 := lo_le f (sb_p b) (sb_pts b) u Iu). assert (A2 := hi_ge f (sb_p b) (sb_pts b) v Iv). assert (A3 := lo_le f q to x Hx). assert (A4 := hi_ge f q to x Hx).
    unfold gtb. split; [destruct (Rlt_dec (hi f q to) (lo f (sb_p b) (sb_pts b))); [lra | reflexivity] | destruct (Rlt_dec (hi f (sb_p b) (sb_pts b)) (lo f q to)); [lra | reflexivity]]. }
  unfold skipped. destruct (G px) as [-> ->]; [now left|]. destruct (G py) as [-> ->]; [right; now left|]. destruct (G pz) as [-> ->]; [right; right; now left|]. reflexivity.
Qed.
Section Search.
Variables (inHull : sblock -> pt -> bool) (verbose : bool) (q : pt) (to : list pt).
Notation pts := (q :: to).
Notation go := (search inHull verbose q to).
Lemma search_acc from : forall found acc n, In n acc -> In n (go from found acc).
Proof.
  induction from as [|b from IH]; intros found acc n H; cbn [search]; [exact H|]. destruct (skipped _ _ _ _ _); [now apply IH|]. cbv zeta.
  assert (I : In n (if existsb (fun x => x) (map (inHull b) pts) then acc ++ [sb_num b] else acc)) by (destruct (existsb _ _); [apply in_or_app; now left | exact H]).
  destruct (negb verbose && _); [exact I | now apply IH].
Qed.
Lemma hit_iff b : existsb (fun x => x) (map (inHull b) pts) = true <-> exists x, In x pts /\ inHull b x = true.
Proof.
  rewrite existsb_exists. split.
  - intros (y & Hy & ->). apply in_map_iff in Hy. destruct Hy as (x & E & Hx). now exists x.
  - intros (x & Hx & E). exists true. split; [apply in_map_iff; now exists x | reflexivity].
Qed.
Lemma search_hits from : forall found acc n, In n (go from found acc) -> In n acc \/ exists b, In b from /\ sb_num b = n /\ exists x, In x pts /\ inHull b x = true.
Proof.
  induction from as [|b from IH]; intros found acc n H; cbn [search] in H; [now left|].
  assert (W : forall f a, In n (go from f a) -> In n a \/ exists b', In b' (b :: from) /\ sb_num b' = n /\ exists x, In x pts /\ inHull b' x = true) by (intros f a X; destruct (IH _ _ _ X) as [Y | (b' & Y & Z)]; [now left | right; exists b'; split; [now right | exact Z]]).
  destruct (skipped _ _ _ _ _); [now apply W in H|]. cbv zeta in H.
  assert (V : In n (if existsb (fun x => x) (map (inHull b) pts) then acc ++ [sb_num b] else acc) -> In n acc \/ exists b', In b' (b :: from) /\ sb_num b' = n /\ exists x, In x pts /\ inHull b' x = true).
  { intros X. destruct (existsb _ _) eqn:E; [|now left]. apply in_app_or in X. destruct X as [X | [X | []]]; [now left | right]. exists b. split; [now left|]. split; [exact X | now apply hit_iff]. }
  destruct (negb verbose && _); [now apply V|]. apply W in H. destruct H as [H | H]; [now apply V | now right].
Qed.
Lemma search_all from : verbose = true -> (forall b, In b from -> sound inHull b) -> forall found acc b x, In b from -> In x pts -> inHull b x = true -> In (sb_num b) (go from found acc).
Proof.
  intros Hv. induction from as [|b from IH]; intros S found acc b' x Hb Hx Hh; [destruct Hb|]. cbn [search].
  assert (S' : forall b0, In b0 from -> sound inHull b0) by (intros; apply S; now right).
  destruct Hb as [-> | Hb].
  - rewrite (not_skipped inHull verbose b' q to x) by (try assumption; apply S; now left). cbv zeta. assert (E : existsb (fun x => x) (map (inHull b') pts) = true) by (apply hit_iff; now exists x). rewrite E, Hv. cbn [negb andb].
    rewrite <- Hv. apply search_acc. apply in_or_app. right. now left.
  - destruct (skipped _ _ _ _ _); [now apply (IH S' _ _ b' x)|]. cbv zeta. rewrite Hv. cbn [negb andb]. rewrite <- Hv. now apply (IH S' _ _ b' x).
Qed.
(* found marks only points inside listed blocks *)
Lemma search_covers (all : list sblock) : forall from found acc, incl from all -> (forall b, In b from -> sound inHull b) -> List.length found = List.length pts ->
  (forall k x, nth_error pts k = Some x -> nth_error found k = Some true -> exists b, In b all /\ In (sb_num b) acc /\ inHull b x = true) ->
  forall x b, In x pts -> In b from -> inHull b x = true -> exists b', In b' all /\ In (sb_num b') (go from found acc) /\ inHull b' x = true.
Proof.
  induction from as [|b from IH]; intros found acc Inc S Len F x b' Hx Hb Hh; [destruct Hb|]. cbn [search].
  assert (S' : forall b0, In b0 from -> sound inHull b0) by (intros; apply S; now right). assert (Inc' : incl from all) by (intros z Hz; apply Inc; now right).
  destruct (skipped _ _ _ _ _) eqn:Es.
  { destruct Hb as [-> | Hb]; [rewrite (not_skipped inHull verbose b' q to x) in Es by (try assumption; apply S; now left); discriminate|]. now apply (IH found acc Inc' S' Len F x b'). }
  cbv zeta. set (hit := existsb (fun x => x) (map (inHull b) pts)). set (acc' := if hit then acc ++ [sb_num b] else acc). set (found' := if hit then _ else found).
  assert (Len' : List.length found' = List.length pts).
  { unfold found'. destruct hit; [|exact Len]. rewrite map_length, combine_length, map_length, Len. apply Nat.min_id. }
  assert (F' : forall k x, nth_error pts k = Some x -> nth_error found' k = Some true -> exists b, In b all /\ In (sb_num b) acc' /\ inHull b x = true).
  { intros k y Hk Hf. unfold found', acc' in *. destruct hit eqn:Eh; [|now apply (F k y)].
    assert (C : forall (l1 l2 : list bool) k v, nth_error (map (fun '(x, y) => x || y) (combine l1 l2)) k = Some v -> exists a c, nth_error l1 k = Some a /\ nth_error l2 k = Some c /\ v = a || c).
    { clear. induction l1 as [|a l1 IH]; intros [|c l2] [|k] v H; cbn in H; try discriminate; [exists a, c; repeat split; congruence|]. apply IH in H. exact H. }
    apply C in Hf. destruct Hf as (a & c & Ha & Hc & E). rewrite nth_error_map, Hk in Hc. cbn [option_map] in Hc.
    destruct a; [destruct (F k y Hk Ha) as (b1 & X & Y & Z); exists b1; split; [exact X|]; split; [apply in_or_app; now left | exact Z]|].
    cbn [orb] in E. exists b. split; [apply Inc; now left|]. split; [apply in_or_app; right; now left | congruence]. }
  destruct (negb verbose && forallb (fun x => x) found') eqn:Eb.
  - apply andb_true_iff in Eb. destruct Eb as [_ Eb]. rewrite forallb_forall in Eb. apply In_nth_error in Hx. destruct Hx as [k Hk].
    assert (Kl : (k < List.length found')%nat) by (rewrite Len'; apply nth_error_Some; congruence). destruct (nth_error found' k) as [v|] eqn:Ev; [|apply nth_error_None in Ev; lia].
    assert (v = true) as -> by (apply Eb; eapply nth_error_In; exact Ev). now apply (F' k x).
  - destruct Hb as [-> | Hb]; [|now apply (IH found' acc' Inc' S' Len' F' x b')].
    exists b'. split; [apply Inc; now left|]. split; [|exact Hh]. apply search_acc. unfold acc', hit. assert (E : existsb (fun x => x) (map (inHull b') pts) = true) by (apply hit_iff; now exists x). rewrite E. apply in_or_app. right. now left.
Qed.
End Search.
(** C114: for every target block, the blocks listed each contain a target cell, and every target cell inside some source block is inside a listed one, in both search modes *)
Theorem C114_covering : forall inHull verbose mbFrom mbTo n q to r, (forall b, In b mbFrom -> sound inHull b) -> nth_error mbTo n = Some (q, to) -> nth_error (findBounds inHull verbose mbFrom mbTo) n = Some r ->
  (forall k, In k r -> exists b, In b mbFrom /\ sb_num b = k /\ exists x, In x (q :: to) /\ inHull b x = true) /\
  (forall x b, In x (q :: to) -> In b mbFrom -> inHull b x = true -> exists b', In b' mbFrom /\ In (sb_num b') r /\ inHull b' x = true).
Proof.
  intros inHull verbose mbFrom mbTo n q to r S H E. unfold findBounds in E. rewrite nth_error_map, H in E. cbn [option_map] in E. assert (R : r = search inHull verbose q to mbFrom (repeat false (Datatypes.S (List.length to))) []) by congruence. clear E. subst r. split.
  - intros k Hk. destruct (search_hits _ _ _ _ _ _ _ _ Hk) as [[] | X]. exact X.
  - intros x b Hx Hb Hh. apply (search_covers inHull verbose q to mbFrom mbFrom (repeat false (Datatypes.S (List.length to))) []) with (b := b); try assumption; [apply incl_refl | now rewrite repeat_length|].
    intros k y _ Hk. exfalso. apply nth_error_In, repeat_spec in Hk. discriminate.
Qed.
(** C114: the verbose search lists exactly the source blocks that contain a target cell *)
Theorem C114_verbose_exact : forall inHull mbFrom mbTo n q to r, (forall b, In b mbFrom -> sound inHull b) -> nth_error mbTo n = Some (q, to) -> nth_error (findBounds inHull true mbFrom mbTo) n = Some r ->
  forall k, In k r <-> exists b, In b mbFrom /\ sb_num b = k /\ exists x, In x (q :: to) /\ inHull b x = true.
Proof.
  intros inHull mbFrom mbTo n q to r S H E k. split; [now apply (C114_covering inHull true mbFrom mbTo n q to r S H E)|]. intros (b & Hb & <- & x & Hx & Hh).
  unfold findBounds in E. rewrite nth_error_map, H in E. cbn [option_map] in E. assert (R : r = search inHull true q to mbFrom (repeat false (Datatypes.S (List.length to))) []) by congruence. clear E. subst r.
  now apply (search_all inHull true q to mbFrom eq_refl S _ _ b x).
Qed.
(** C114: a source block that lies entirely to one side of the target block in some coordinate is not searched, whatever the test of its hull would say (the documented purpose of the first pass:
    "blocks that could not possibly overlap").  The verbose search makes one exception: a source block entirely below (in z) the target block. *)
Definition apart (f : pt -> R) (l r : list pt) : Prop := forall a b, In a l -> In b r -> f a < f b.
Lemma lo_in f p l : exists x, In x (p :: l) /\ lo f p l = f x.
Proof. destruct (proj1 (minOf_spec (map f l) (f p))) as [H | H]; [exists p; split; [now left | unfold lo; congruence] | apply in_map_iff in H; destruct H as (x & E & I); exists x; split; [now right | unfold lo; congruence]]. Qed.
Lemma hi_in f p l : exists x, In x (p :: l) /\ hi f p l = f x.
Proof. destruct (proj1 (maxOf_spec (map f l) (f p))) as [H | H]; [exists p; split; [now left | unfold hi; congruence] | apply in_map_iff in H; destruct H as (x & E & I); exists x; split; [now right | unfold hi; congruence]]. Qed.
Lemma apart_gtb f p l q r : apart f (p :: l) (q :: r) -> gtb (lo f q r) (hi f p l) = true.
Proof. intros H. destruct (lo_in f q r) as (b & Ib & ->), (hi_in f p l) as (a & Ia & ->). unfold gtb. destruct (Rlt_dec (f a) (f b)); [reflexivity | elim n; now apply H]. Qed.
Lemma apart_skipped verbose b q to f : In f [px; py; pz] -> apart f (q :: to) (sb_all b) \/ (apart f (sb_all b) (q :: to) /\ (verbose = false \/ f = px \/ f = py)) ->
  skipped verbose (sb_p b) (sb_pts b) q to = true.
Proof.
  intros Hf [H | [H V]]; apply apart_gtb in H; unfold skipped; destruct Hf as [<- | [<- | [<- | []]]]; rewrite H; rewrite ?orb_true_r; cbn [orb]; rewrite ?orb_true_r; try reflexivity.
  assert (N : verbose = false).
  { destruct V as [V | [V | V]]; [exact V | exfalso; assert (X := f_equal (fun g => g (1, 0, 0)) V) | exfalso; assert (X := f_equal (fun g => g (0, 1, 0)) V)]; unfold px, py, pz in X; cbn in X; lra. }
  rewrite N. cbn [negb andb]. now rewrite ?orb_true_r.
Qed.
Lemma search_only inHull verbose q to from : forall found acc n, In n (search inHull verbose q to from found acc) -> In n acc \/ exists b, In b from /\ sb_num b = n /\ skipped verbose (sb_p b) (sb_pts b) q to = false.
Proof.
  induction from as [|b from IH]; intros found acc n H; cbn [search] in H; [now left|].
  assert (W : forall f a, In n (search inHull verbose q to from f a) -> In n a \/ exists b', In b' (b :: from) /\ sb_num b' = n /\ skipped verbose (sb_p b') (sb_pts b') q to = false)
    by (intros f a X; destruct (IH _ _ _ X) as [Y | (b' & Y & Z)]; [now left | right; exists b'; split; [now right | exact Z]]).
  destruct (skipped verbose (sb_p b) (sb_pts b) q to) eqn:Es; [now apply W in H|]. cbv zeta in H.
  assert (V : forall h : bool, In n (if h then acc ++ [sb_num b] else acc) -> In n acc \/ exists b', In b' (b :: from) /\ sb_num b' = n /\ skipped verbose (sb_p b') (sb_pts b') q to = false).
  { intros [|] X; [|now left]. apply in_app_or in X. destruct X as [X | [X | []]]; [now left | right]. exists b. split; [now left|]. split; [exact X | exact Es]. }
  destruct (negb verbose && _); [now apply V in H|]. apply W in H. destruct H as [H | H]; [now apply V in H | now right].
Qed.
Theorem C114_separated_ignored : forall inHull verbose mbFrom mbTo n q to r, nth_error mbTo n = Some (q, to) -> nth_error (findBounds inHull verbose mbFrom mbTo) n = Some r ->
  forall k, In k r -> exists b, In b mbFrom /\ sb_num b = k /\ forall f, In f [px; py; pz] ->
    ~ apart f (q :: to) (sb_all b) /\ (verbose = false \/ f = px \/ f = py -> ~ apart f (sb_all b) (q :: to)).
Proof.
  intros inHull verbose mbFrom mbTo n q to r H E k Hk. unfold findBounds in E. rewrite nth_error_map, H in E. cbn [option_map] in E.
  assert (R : r = search inHull verbose q to mbFrom (repeat false (S (List.length to))) []) by congruence. clear E. subst r.
  destruct (search_only _ _ _ _ _ _ _ _ Hk) as [[] | (b & Ib & Nb & Es)]. exists b. split; [exact Ib|]. split; [exact Nb|]. intros f Hf.
  split; [intros A | intros V A]; rewrite (apart_skipped verbose b q to f Hf) in Es; try discriminate; [now left | right; now split].
Qed.
(** a hull test that is sound and not trivial: a unit box *)
Definition exBlk : sblock := mkSB 7 (0, 0, 0) [(1, 1, 1)].
Definition exHull (b : sblock) (x : pt) : bool := if Req_EM_T (px x) (py x) then if Req_EM_T (px x) (pz x) then (if Rle_dec 0 (px x) then if Rle_dec (px x) 1 then true else false else false) else false else false.
Example C114_example : sound exHull exBlk /\ exHull exBlk (1/2, 1/2, 1/2) = true.
Proof.
  split.
  - intros x H f Hf. unfold exHull in H. destruct (Req_EM_T (px x) (py x)); [|discriminate]. destruct (Req_EM_T (px x) (pz x)); [|discriminate]. destruct (Rle_dec 0 (px x)); [|discriminate]. destruct (Rle_dec (px x) 1); [|discriminate].
    exists (0, 0, 0), (1, 1, 1). split; [now left|]. split; [right; now left|]. destruct Hf as [<- | [<- | [<- | []]]]; unfold px, py, pz in *; cbn [fst snd]; lra.
  - unfold exHull, px, py, pz. cbn [fst snd]. destruct (Req_EM_T (1/2) (1/2)); [|lra]. destruct (Rle_dec 0 (1/2)); [|lra]. destruct (Rle_dec (1/2) 1); [reflexivity | lra].
Qed.
Example C114_separated_example : findBounds (fun _ _ => true) true [exBlk; mkSB 8 (3, 0, 0) [(4, 1, 1)]] [((1/2, 1/2, 1/2), [])] = [[7%Z]].
Proof.
  unfold findBounds. cbn [map search]. rewrite (not_skipped exHull true exBlk (1/2, 1/2, 1/2) [] (1/2, 1/2, 1/2)); [|apply C114_example | now left | apply C114_example].
  rewrite (apart_skipped true (mkSB 8 (3, 0, 0) [(4, 1, 1)]) (1/2, 1/2, 1/2) [] px); [reflexivity | now left | left].
  intros a b [<- | []] [<- | [<- | []]]; unfold px; cbn; lra.
Qed.
Print Assumptions C81_no_new_extrema. Print Assumptions C81_inside_kept. Print Assumptions C114_covering. Print Assumptions C114_verbose_exact.
 Print Assumptions C114_separated_ignored.
