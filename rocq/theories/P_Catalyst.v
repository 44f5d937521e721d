(** C152: in-situ visualisation is given the solution.  Vocabulary: S_Catalyst.  Model: M_Catalyst. *)
From Coq Require Import Reals ZArith NArith String List Bool Lia Lra Permutation.
From Verif Require Import M_Topology M_Halo M_Grid M_Metrics M_Procs M_Io L_Io M_Catalyst S_Catalyst.
Import ListNotations.
Open Scope list_scope.
Open Scope Z_scope.

(** ** Named arrays *)
Definition keys (l : list (string * vtkArray)) := map fst l.
Definition look (l : list (string * vtkArray)) (n : string) : option vtkArray := match find (fun na => String.eqb n (fst na)) l with Some (_, a) => Some a | None => None end.
Lemma look_cons m b l n : look ((m, b) :: l) n = if String.eqb n m then Some b else look l n.
Proof. unfold look. cbn [find fst]. destruct (String.eqb n m); reflexivity. Qed.
Lemma look_none l n : ~ In n (keys l) -> look l n = None.
Proof. induction l as [|[m b] l IH]; intros H; [reflexivity|]. rewrite look_cons. cbn [keys map fst In] in H. destruct (String.eqb_spec n m); [subst; tauto|]. apply IH. tauto. Qed.
Lemma look_in l n a : NoDup (keys l) -> (look l n = Some a <-> In (n, a) l).
Proof.
  induction l as [|[m b] l IH]; intros N; [split; [discriminate|intros []]|]. rewrite look_cons. cbn [keys map fst] in N. inversion N as [|? ? Ni N']; subst. cbn [In]. destruct (String.eqb_spec n m).
  - subst m. split; [intros E; injection E as <-; auto|]. intros [E|I]; [injection E as <-; reflexivity|]. exfalso. apply Ni. apply (in_map fst) in I. exact I.
  - rewrite (IH N'). split; [auto|]. intros [E|I]; [congruence|exact I].
Qed.
Definition good (op : list (string * vtkArray) -> string -> vtkArray -> list (string * vtkArray)) : Prop := forall l n a, NoDup (keys l) ->
  NoDup (keys (op l n a)) /\ (forall m, In m (keys (op l n a)) <-> m = n \/ In m (keys l)) /\ forall m, look (op l n a) m = if String.eqb m n then Some a else look l m.
Lemma good_add : good addArray.
Proof.
  intros l n a. unfold addArray. induction l as [|[m b] l IH]; intros N; cbn [addTo].
  - split; [repeat constructor; intros []|]. split; [cbn; intuition|]. intros k. rewrite look_cons. reflexivity.
  - cbn [keys map fst] in N. inversion N as [|? ? Ni N']; subst. destruct (String.eqb_spec n m).
    + subst m. split; [exact N|]. split; [cbn; intuition|]. intros k. rewrite !look_cons. destruct (String.eqb k n); reflexivity.
    + destruct (IH N') as (A & B & C). cbn [keys map fst]. fold (keys (addTo l n a)). split; [constructor; [|exact A]; intros I; apply B in I; destruct I; [congruence|contradiction]|].
      split; [intros k; cbn [In]; rewrite B; unfold keys; intuition|]. intros k. rewrite !look_cons, C. destruct (String.eqb_spec k m); destruct (String.eqb_spec k n); congruence || reflexivity.
Qed.
Lemma remove_spec l n : NoDup (keys l) -> NoDup (keys (removeFrom l n)) /\ (forall m, In m (keys (removeFrom l n)) <-> m <> n /\ In m (keys l)) /\ forall m, m <> n -> look (removeFrom l n) m = look l m.
Proof.
  induction l as [|[m b] l IH]; intros N; cbn [removeFrom].
  - split; [constructor|]. split; [cbn; intuition|reflexivity].
  - cbn [keys map fst] in N. inversion N as [|? ? Ni N']; subst. destruct (String.eqb_spec n m).
    + subst m. split; [exact N'|]. split; [intros k; cbn [In fst keys map]; split; [intros I; split; [intros E; subst; contradiction|auto]|intros [E [X|X]]; [congruence|exact X]]|].
      intros k Hk. rewrite look_cons. destruct (String.eqb_spec k n); [contradiction|reflexivity].
    + destruct (IH N') as (A & B & C). cbn [keys map fst]. fold (keys (removeFrom l n)). split; [constructor; [intros I; apply B in I; tauto|exact A]|].
      split; [intros k; cbn [In]; rewrite B; unfold keys; split; [intros [E|[E I]]; [subst; auto|auto]|intros [E [I|I]]; auto]|]. intros k Hk. rewrite !look_cons, C by exact Hk. reflexivity.
Qed.
Lemma good_swap : good swapArray.
Proof.
  intros l n a N. unfold swapArray. destruct (remove_spec l n N) as (A & B & C). destruct (good_add (removeFrom l n) n a A) as (A' & B' & C'). split; [exact A'|]. split.
  - intros m. unfold addArray in B'. rewrite B', B. destruct (string_dec m n); tauto.
  - intros m. unfold addArray in C'. rewrite C'. destruct (String.eqb_spec m n); [reflexivity|]. apply C. assumption.
Qed.
Definition opt := list (string * vtkArray) -> string -> vtkArray -> list (string * vtkArray).
Definition applyAll (L : list (opt * (string * vtkArray))) (c : list (string * vtkArray)) := fold_left (fun c x => fst x c (fst (snd x)) (snd (snd x))) L c.
Lemma applyAll_spec L : forall c, (forall x, In x L -> good (fst x)) -> NoDup (keys c) -> NoDup (map (fun x => fst (snd x)) L) ->
  NoDup (keys (applyAll L c)) /\ (forall m, In m (keys (applyAll L c)) <-> In m (map (fun x => fst (snd x)) L) \/ In m (keys c)) /\
  (forall o n a, In (o, (n, a)) L -> look (applyAll L c) n = Some a) /\ (forall m, ~ In m (map (fun x => fst (snd x)) L) -> look (applyAll L c) m = look c m).
Proof.
  induction L as [|[o [n a]] L IH]; intros c G N D; cbn [applyAll fold_left fst snd map].
  - split; [exact N|]. split; [cbn; tauto|]. split; [intros o n a []|reflexivity].
  - cbn [map fst snd] in D. inversion D as [|? ? Ni D']; subst. destruct (G (o, (n, a)) (or_introl eq_refl) c n a N) as (A & B & C). cbn [fst] in A, B, C.
    destruct (IH (o c n a) (fun x H => G x (or_intror H)) A D') as (A' & B' & C' & E'). fold (applyAll L (o c n a)). split; [exact A'|]. split; [|split].
    + intros m. rewrite B', B. cbn [In]. intuition.
    + intros o' n' a' [I|I]; [|eapply C'; eauto]. injection I as <- <- <-. rewrite E' by exact Ni. rewrite C, String.eqb_refl. reflexivity.
    + intros m H. cbn [In] in H. rewrite E' by tauto. rewrite C. destruct (String.eqb_spec m n); [subst; tauto|reflexivity].
Qed.

(** ** The arrays of a block *)
Lemma col1_nth l n x : nth_error l n = Some x -> nth_error (col1 l) n = Some [x].
Proof. intros H. unfold col1. rewrite nth_error_map, H. reflexivity. Qed.
Lemma col3_nth l m n : forall k x y z, nth_error l k = Some x -> nth_error m k = Some y -> nth_error n k = Some z -> nth_error (col3 l m n) k = Some [x; y; z].
Proof.
  revert m n. induction l as [|a l IH]; intros m n k x y z H1 H2 H3; [destruct k; discriminate|]. destruct m as [|b m]; [destruct k; discriminate|]. destruct n as [|c n]; [destruct k; discriminate|].
  destruct k; cbn [nth_error col3] in *; [congruence|]. apply IH; assumption.
Qed.
Lemma col3_length l m n : List.length l = List.length m -> List.length m = List.length n -> List.length (col3 l m n) = List.length l.
Proof. revert m n. induction l as [|a l IH]; intros [|b m] [|c n] H1 H2; try discriminate; [reflexivity|]. cbn [col3 List.length] in *. rewrite IH; congruence. Qed.
Lemma ravel_nth n1 n2 n3 lo a i j k : 0 <= i < n1 -> 0 <= j < n2 -> 0 <= k < n3 -> nth_error (ravelF n1 n2 n3 lo a) (Z.to_nat (i + n1 * (j + n2 * k))) = Some (a (lo + i) (lo + j) (lo + k)).
Proof.
  intros Hi Hj Hk. rewrite (nth_error_nth' _ 0%R).
  - rewrite ravelF_nth by assumption. reflexivity.
  - rewrite ravelF_length by lia. assert (A : 0 <= j + n2 * k <= n2 * n3 - 1) by nia. assert (B : 0 <= i + n1 * (j + n2 * k) < n1 * (n2 * n3)) by (clear Hj Hk; set (m := j + n2 * k) in *; set (t := n2 * n3) in *; nia).
    apply Z2Nat.inj_lt; try lia; replace (n1 * n2 * n3) with (n1 * (n2 * n3)) by ring; lia.
Qed.
Section Block.
Variable b : cblock.
Hypothesis SB : solverBlock b.
Variables q Q : arr4.
Definition pieces : list (string * vtkArray) :=
  [("rho"%string, col1 (flatC b (comp Q 0))); ("p"%string, col1 (flatC b (comp q 0))); ("Velocity"%string, velocityOf b q); ("T"%string, col1 (flatC b (comp q 4)))] ++
  map (fun s => (snd s, col1 (flatC b (comp q (5 + Z.of_nat (fst s)))))) (named b) ++ [(last (cb_species b) ""%string, lastOf b q)].
Lemma split_species : cb_species b = removelast (cb_species b) ++ [last (cb_species b) ""%string].
Proof. apply app_removelast_last. apply SB. Qed.
Lemma removelast_len : List.length (removelast (cb_species b)) = (List.length (cb_species b) - 1)%nat.
Proof. rewrite split_species at 2. rewrite app_length. cbn. lia. Qed.
Lemma named_snd : map snd (named b) = removelast (cb_species b).
Proof.
  unfold named. rewrite <- removelast_len. generalize 0%nat. induction (removelast (cb_species b)) as [|s l IH]; intros n; [reflexivity|]. cbn [List.length seq combine map snd]. f_equal. apply IH.
Qed.
Lemma pieces_names : map fst pieces = ["rho"; "p"; "Velocity"; "T"]%string ++ cb_species b.
Proof. unfold pieces. rewrite !map_app, map_map. cbn [map fst app]. replace (map (fun x : nat * string => snd x) (named b)) with (removelast (cb_species b)) by (symmetry; apply named_snd). rewrite <- split_species. reflexivity. Qed.
Lemma pieces_len n a : In (n, a) pieces -> List.length a = Z.to_nat ((ni (cb_d b) - 1) * (nj (cb_d b) - 1) * (nk (cb_d b) - 1)).
Proof.
  destruct SB as (H1 & H2 & H3 & _).
  assert (L : forall f, List.length (flatC b f) = Z.to_nat ((ni (cb_d b) - 1) * (nj (cb_d b) - 1) * (nk (cb_d b) - 1))) by (intros f; unfold flatC; apply ravelF_length; lia).
  intros I. unfold pieces in I. apply in_app_or in I. destruct I as [I|I]; [|apply in_app_or in I; destruct I as [I|I]].
  - cbn [In] in I. repeat destruct I as [I|I]; try contradiction; injection I as <- <-; unfold col1, velocityOf; rewrite ?map_length, ?col3_length, ?L; rewrite ?L; reflexivity.
  - apply in_map_iff in I. destruct I as (x & E & _). injection E as <- <-. unfold col1. rewrite map_length. apply L.
  - destruct I as [I|[]]. injection I as <- <-. unfold lastOf, col1. rewrite !map_length. apply L.
Qed.
Lemma shows g : NoDup (keys (vg_cells g)) -> (forall m, In m (keys (vg_cells g)) <-> In m (map fst pieces)) -> (forall n a, In (n, a) pieces -> look (vg_cells g) n = Some a) -> showsFields b q Q g.
Proof.
  intros N K L. destruct SB as (H1 & H2 & H3 & Ne & ND). unfold showsFields. split; [|split].
  - apply NoDup_Permutation; [exact N|exact ND|]. intros m. rewrite <- pieces_names. apply K.
  - intros n a I. pose proof I as I0. apply look_in in I; [|exact N]. assert (In n (map fst pieces)) by (apply K; apply (in_map fst) in I0; exact I0). apply in_map_iff in H. destruct H as ((n' & a') & E & J). cbn [fst] in E. subst n'.
    rewrite (L _ _ J) in I. injection I as <-. eapply pieces_len; eauto.
  - intros i j k Hi Hj Hk. cbv zeta. set (id := cellId (cb_d b) i j k). pose (at_ := fun (a : arr4) l => a (cb_ng b + i) (cb_ng b + j) (cb_ng b + k) l).
    assert (V : forall n a, In (n, a) pieces -> cellValue g n id = nth_error a id).
    { intros n a I. apply L in I. unfold look in I. unfold cellValue. destruct (find _ _) as [[n' a']|]; [|discriminate]. injection I as <-. reflexivity. }
    assert (F : forall f, nth_error (flatC b f) id = Some (f (cb_ng b + i) (cb_ng b + j) (cb_ng b + k))) by (intros f; unfold flatC, id, cellId; apply ravel_nth; assumption).
    split; [rewrite (V _ _ (or_introl eq_refl)); apply col1_nth; apply F|].
    split; [rewrite (V _ _ (or_intror (or_introl eq_refl))); apply col1_nth; apply F|].
    split; [rewrite (V _ _ (or_intror (or_intror (or_introl eq_refl)))); apply col3_nth; apply F|].
    split; [rewrite (V _ _ (or_intror (or_intror (or_intror (or_introl eq_refl))))); apply col1_nth; apply F|].
    set (ys := map (fun n => at_ q (5 + Z.of_nat n)) (seq 0 (List.length (cb_species b) - 1))). exists (ys ++ [1 - fold_right Rplus 0 ys]%R).
    split; [|split].
    + rewrite split_species, !map_app. f_equal.
      * rewrite <- named_snd, map_map. unfold ys. rewrite map_map.
        assert (E : map fst (named b) = seq 0 (List.length (cb_species b) - 1)) by (unfold named; rewrite <- removelast_len; generalize 0%nat; induction (removelast (cb_species b)) as [|s l IH]; intros n; [reflexivity|]; cbn [List.length seq combine map fst]; f_equal; apply IH).
        rewrite <- E, map_map. apply map_ext_in. intros [n s] I. cbn [fst snd]. rewrite (V s (col1 (flatC b (comp q (5 + Z.of_nat n))))); [apply col1_nth; rewrite F; reflexivity|].
        unfold pieces. apply in_or_app. right. apply in_or_app. left. apply in_map_iff. exists (n, s). auto.
      * cbn [map]. f_equal. rewrite (V (last (cb_species b) ""%string) (lastOf b q)); [|unfold pieces; apply in_or_app; right; apply in_or_app; right; now left].
        unfold lastOf. apply col1_nth. rewrite nth_error_map, F. cbn [option_map]. reflexivity.
    + assert (S : forall l z, fold_right Rplus 0%R (l ++ [z]) = (fold_right Rplus 0 l + z)%R) by (clear; induction l as [|x l IH]; intros z; cbn [app fold_right]; [lra|rewrite IH; lra]). rewrite S. lra.
    + intros n Hn. rewrite nth_error_app1 by (unfold ys; rewrite map_length, seq_length; lia). unfold ys. rewrite nth_error_map. rewrite (nth_error_nth' _ 0%nat) by (rewrite seq_length; lia). rewrite seq_nth by lia. reflexivity.
Qed.
End Block.

(** ** The two ways a grid gets its arrays *)
Lemma fold_map {A B C} (f : A -> B -> A) (g : C -> B) l : forall a, fold_left f (map g l) a = fold_left (fun a x => f a (g x)) l a.
Proof. induction l as [|x l IH]; intros a; [reflexivity|]. cbn [map fold_left]. apply IH. Qed.
Definition opsWith (o v : opt) (L : list (string * vtkArray)) : list (opt * (string * vtkArray)) :=
  match L with r :: p :: u :: rest => (o, r) :: (o, p) :: (v, u) :: map (fun x => (o, x)) rest | _ => [] end.
Lemma opsWith_names o v b q Q : map (fun x => fst (snd x)) (opsWith o v (pieces b q Q)) = map fst (pieces b q Q).
Proof. assert (G : forall r p u rest, map (fun x => fst (snd x)) (opsWith o v (r :: p :: u :: rest)) = map fst (r :: p :: u :: rest)) by (intros; unfold opsWith; cbn [map fst snd]; rewrite map_map; reflexivity). unfold pieces. cbn [app]. apply G. Qed.
Lemma opsWith_in o v b q Q n a : In (n, a) (pieces b q Q) -> exists o', In (o', (n, a)) (opsWith o v (pieces b q Q)).
Proof.
  assert (G : forall r p u rest, In (n, a) (r :: p :: u :: rest) -> exists o', In (o', (n, a)) (opsWith o v (r :: p :: u :: rest))).
  { intros r p u rest I. unfold opsWith. cbn [In] in I. destruct I as [->|[->|[->|I]]]; [exists o; now left|exists o; right; now left|exists v; right; right; now left|exists o; right; right; right; exact (in_map (fun x => (o, x)) _ _ I)]. }
  unfold pieces. cbn [app]. apply G.
Qed.
Lemma opsWith_good o v b q Q : good o -> good v -> forall x, In x (opsWith o v (pieces b q Q)) -> good (fst x).
Proof.
  intros Go Gv x I. unfold opsWith, pieces in I. cbn [app] in I. cbn [In] in I. destruct I as [<-|[<-|[<-|I]]]; cbn [fst]; auto. apply in_map_iff in I. destruct I as (y & <- & _). exact Go.
Qed.
Lemma init_ops b : vg_cells (initGrid b) = applyAll (opsWith addArray addArray (pieces b (cb_q b) (cb_Q b))) [].
Proof.
  unfold initGrid. cbv zeta. cbn [vg_cells]. unfold applyAll, opsWith, pieces. cbn [app]. cbn [map fold_left fst snd]. rewrite map_app, fold_left_app, map_map. cbn [map fold_left fst snd]. rewrite fold_map. reflexivity.
Qed.
Lemma call_ops b g : vg_cells (callGrid b g) = applyAll (opsWith swapArray addArray (pieces b (cb_dq b) (cb_dQ b))) (vg_cells g).
Proof.
  unfold callGrid. cbv zeta. cbn [vg_cells]. unfold applyAll, opsWith, pieces. cbn [app]. cbn [map fold_left fst snd]. rewrite map_app, fold_left_app, map_map. cbn [map fold_left fst snd]. rewrite fold_map. reflexivity.
Qed.
Lemma init_shows b : solverBlock b -> showsNodes b (initGrid b) /\ showsFields b (cb_q b) (cb_Q b) (initGrid b).
Proof.
  intros SB. pose proof SB as (H1 & H2 & H3 & _ & ND). split.
  - unfold showsNodes, initGrid. cbv zeta. cbn [vg_dims vg_points]. split; [reflexivity|].
    assert (L : forall f, List.length (flatN b f) = Z.to_nat (ni (cb_d b) * nj (cb_d b) * nk (cb_d b))) by (intros f; unfold flatN; apply ravelF_length; lia).
    split; [rewrite col3_length by (rewrite !L; reflexivity); apply L|]. intros i j k Hi Hj Hk. cbn [map]. apply col3_nth; unfold flatN, pointId; apply ravel_nth; assumption.
  - destruct (applyAll_spec (opsWith addArray addArray (pieces b (cb_q b) (cb_Q b))) []) as (A & B & C & D).
    { apply opsWith_good; apply good_add. } { constructor. } { rewrite opsWith_names, pieces_names by exact SB. exact ND. }
    apply shows; [exact SB| | |]; rewrite init_ops; [exact A| |].
    + intros m. rewrite B, opsWith_names. cbn [keys map In]. tauto.
    + intros n a I. destruct (opsWith_in addArray addArray _ _ _ _ _ I) as [o I']. eapply C; eauto.
Qed.
Lemma call_shows b q Q g : solverBlock b -> showsFields b q Q g -> showsFields b (cb_dq b) (cb_dQ b) (callGrid b g).
Proof.
  intros SB SF. pose proof SB as (H1 & H2 & H3 & _ & ND). destruct SF as (P & _ & _).
  assert (N : NoDup (keys (vg_cells g))) by (eapply Permutation_NoDup; [apply Permutation_sym; exact P|exact ND]).
  destruct (applyAll_spec (opsWith swapArray addArray (pieces b (cb_dq b) (cb_dQ b))) (vg_cells g)) as (A & B & C & D).
  { apply opsWith_good; [apply good_swap|apply good_add]. } { exact N. } { rewrite opsWith_names, pieces_names by exact SB. exact ND. }
  apply shows; [exact SB| | |]; rewrite call_ops; [exact A| |].
  - intros m. rewrite B, opsWith_names. split; [intros [I|I]; [exact I|]|auto]. rewrite pieces_names by exact SB. eapply Permutation_in; [exact P|exact I].
  - intros n a I. destruct (opsWith_in swapArray addArray _ _ _ _ _ I) as [o I']. eapply C; eauto.
Qed.

(** ** The data set *)
Lemma setBlock_nth l : forall n g m, nth_error (setBlock l n g) m = if (m =? n)%nat then (match nth_error l n with Some _ => Some (Some g) | None => None end) else nth_error l m.
Proof.
  induction l as [|x l IH]; intros n g m; [destruct m, n; cbn; try reflexivity; destruct (Nat.eqb m n); reflexivity|]. destruct n as [|n]; cbn [setBlock]; destruct m as [|m]; try reflexivity. cbn [nth_error]. rewrite IH. reflexivity.
Qed.
Lemma setBlock_length l : forall n g, List.length (setBlock l n g) = List.length l.
Proof. induction l as [|x l IH]; intros [|n] g; try reflexivity. cbn [setBlock List.length]. f_equal. apply IH. Qed.
Lemma init_spec mb : forall ds, NoDup (map cb_num mb) -> (forall b, In b mb -> (cb_num b < List.length ds)%nat) -> let r := fold_left (fun ds b => setBlock ds (cb_num b) (initGrid b)) mb ds in
  List.length r = List.length ds /\ (forall b, In b mb -> nth_error r (cb_num b) = Some (Some (initGrid b))) /\ (forall n, ~ In n (map cb_num mb) -> nth_error r n = nth_error ds n).
Proof.
  induction mb as [|b mb IH]; intros ds N L; cbn [fold_left]; [split; [reflexivity|split; [intros b []|reflexivity]]|].
  cbn [map] in N. inversion N as [|? ? Ni N']; subst. destruct (IH (setBlock ds (cb_num b) (initGrid b)) N') as (A & B & C).
  { intros b' I. rewrite setBlock_length. apply L. now right. }
  cbv zeta. rewrite A, setBlock_length. split; [reflexivity|]. split.
  - intros b' [<-|I]; [|apply B; exact I]. rewrite C by exact Ni. rewrite setBlock_nth, Nat.eqb_refl. destruct (nth_error ds (cb_num b)) eqn:E; [reflexivity|]. apply nth_error_None in E. specialize (L b (or_introl eq_refl)). lia.
  - intros n H. cbn [map In] in H. rewrite C by tauto. rewrite setBlock_nth. destruct (Nat.eqb_spec n (cb_num b)); [subst; tauto|reflexivity].
Qed.
Lemma call_spec mb : forall ds, NoDup (map cb_num mb) -> let r := call true mb ds in
  List.length r = List.length ds /\ (forall b g, In b mb -> nth_error ds (cb_num b) = Some (Some g) -> nth_error r (cb_num b) = Some (Some (callGrid b g))) /\ (forall n, ~ In n (map cb_num mb) -> nth_error r n = nth_error ds n).
Proof.
  unfold call. induction mb as [|b mb IH]; intros ds N; cbn [fold_left]; [split; [reflexivity|split; [intros b g []|reflexivity]]|].
  cbn [map] in N. inversion N as [|? ? Ni N']; subst. set (ds1 := match nth_error ds (cb_num b) with Some (Some g) => setBlock ds (cb_num b) (callGrid b g) | _ => ds end).
  destruct (IH ds1 N') as (A & B & C). cbv zeta. rewrite A.
  assert (O : forall n, n <> cb_num b -> nth_error ds1 n = nth_error ds n).
  { intros n H. unfold ds1. destruct (nth_error ds (cb_num b)) as [[g|]|]; try reflexivity. rewrite setBlock_nth. destruct (Nat.eqb_spec n (cb_num b)); [contradiction|reflexivity]. }
  split; [unfold ds1; destruct (nth_error ds (cb_num b)) as [[g|]|]; rewrite ?setBlock_length; reflexivity|]. split.
  - intros b' g [<-|I] E; [|apply B; [exact I|]; rewrite O; [exact E|intros X; apply Ni; rewrite <- X; apply in_map; exact I]].
    rewrite C by exact Ni. unfold ds1. rewrite E, setBlock_nth, Nat.eqb_refl, E. reflexivity.
  - intros n H. cbn [map In] in H. rewrite C by tauto. apply O. intros X. apply H. auto.
Qed.

(** ** Histories *)
Lemma same_nums mb mb' : sameBlocks mb mb' -> map cb_num mb' = map cb_num mb.
Proof. induction 1 as [|b b' l l' (E & _) F IH]; [reflexivity|]. cbn [map]. congruence. Qed.
Lemma same_in mb mb' b' : sameBlocks mb mb' -> In b' mb' -> exists b, In b mb /\ cb_num b' = cb_num b /\ cb_d b' = cb_d b /\ cb_ng b' = cb_ng b /\ cb_species b' = cb_species b /\ cb_xyz b' = cb_xyz b.
Proof. induction 1 as [|b c l l' H F IH]; intros I; [destruct I|]. destruct I as [<-|I]; [exists b; split; [now left|exact H]|]. destruct (IH I) as (x & X & Y). exists x. split; [now right|exact Y]. Qed.
Lemma shows_same b b' q Q g : cb_d b' = cb_d b -> cb_ng b' = cb_ng b -> cb_species b' = cb_species b -> cb_xyz b' = cb_xyz b -> (showsFields b q Q g -> showsFields b' q Q g) /\ (showsNodes b g -> showsNodes b' g) /\ (solverBlock b -> solverBlock b').
Proof. intros E1 E2 E3 E4. unfold showsFields, showsNodes, solverBlock. rewrite E1, E2, E3, E4. auto. Qed.
Definition ok (total : nat) (mb : list cblock) (ds : list (option vtkGrid)) : Prop :=
  List.length ds = total /\ (forall b, In b mb -> exists g q Q, nth_error ds (cb_num b) = Some (Some g) /\ showsNodes b g /\ showsFields b q Q g) /\ (forall n, (n < total)%nat -> ~ In n (map cb_num mb) -> nth_error ds n = Some None).
Section Run.
Variables (total : nat) (mb : list cblock).
Hypothesis SB : Forall solverBlock mb.
Hypothesis ND : NoDup (map cb_num mb).
Hypothesis LT : forall b, In b mb -> (cb_num b < total)%nat.
Lemma init_ok : ok total mb (init total mb) /\ forall b, In b mb -> nth_error (init total mb) (cb_num b) = Some (Some (initGrid b)).
Proof.
  unfold init, ok. destruct (init_spec mb (repeat None total) ND) as (A & B & C); [intros b I; rewrite repeat_length; auto|]. rewrite A, repeat_length. split; [split; [reflexivity|split]|exact B].
  - intros b I. exists (initGrid b), (cb_q b), (cb_Q b). split; [apply B; exact I|]. apply init_shows. rewrite Forall_forall in SB. auto.
  - intros n L H. rewrite C by exact H. rewrite (nth_error_nth' _ None) by (rewrite repeat_length; exact L). f_equal. apply nth_repeat.
Qed.
Lemma call_ok r mb' ds : sameBlocks mb mb' -> ok total mb ds -> ok total mb (call r mb' ds) /\
  (r = true -> forall b, In b mb' -> exists g, nth_error (call r mb' ds) (cb_num b) = Some (Some g) /\ showsNodes b g /\ showsFields b (cb_dq b) (cb_dQ b) g).
Proof.
  intros S K. destruct r; [|split; [exact K|discriminate]]. destruct K as (K1 & K2 & K3). pose proof (same_nums _ _ S) as Nm.
  destruct (call_spec mb' ds ltac:(rewrite Nm; exact ND)) as (A & B & C). cbv zeta in *.
  assert (P : forall b, In b mb' -> exists g, nth_error (call true mb' ds) (cb_num b) = Some (Some g) /\ showsNodes b g /\ showsFields b (cb_dq b) (cb_dQ b) g).
  { intros b' I. destruct (same_in _ _ _ S I) as (b & Ib & E0 & E1 & E2 & E3 & E4). destruct (K2 b Ib) as (g & q & Q & Eg & Sn & Sf). exists (callGrid b' g).
    destruct (shows_same b b' q Q g E1 E2 E3 E4) as (T1 & T2 & T3). split; [apply B; [exact I|rewrite E0; exact Eg]|]. split; [destruct (T2 Sn) as (Z1 & Z2 & Z3); unfold showsNodes, callGrid; cbv zeta; cbn [vg_dims vg_points]; auto|].
    eapply call_shows; [apply T3; rewrite Forall_forall in SB; auto|apply T1; exact Sf]. }
  split; [|intros _; exact P]. split; [congruence|]. split.
  - intros b I. assert (exists b', In b' mb' /\ cb_num b' = cb_num b /\ cb_d b' = cb_d b /\ cb_ng b' = cb_ng b /\ cb_species b' = cb_species b /\ cb_xyz b' = cb_xyz b) as (b' & I' & E0 & E1 & E2 & E3 & E4).
    { clear - S I. induction S as [|x y l l' H F IH]; [destruct I|]. destruct I as [<-|I]; [exists y; split; [now left|exact H]|]. destruct (IH I) as (z & Z1 & Z2). exists z. split; [now right|exact Z2]. }
    destruct (P b' I') as (g & G1 & G2 & G3). exists g, (cb_dq b'), (cb_dQ b'). destruct (shows_same b' b (cb_dq b') (cb_dQ b') g (eq_sym E1) (eq_sym E2) (eq_sym E3) (eq_sym E4)) as (T1 & T2 & _). rewrite <- E0. auto.
  - intros n L H. rewrite C by (rewrite Nm; exact H). apply K3; assumption.
Qed.
Lemma run_ok calls : Forall (fun c => sameBlocks mb (snd c)) calls -> ok total mb (runOf total mb calls).
Proof.
  unfold runOf. intros F. assert (G : forall ds, ok total mb ds -> ok total mb (fold_left (fun ds c => call (fst c) (snd c) ds) calls ds)).
  { induction F as [|c l H F IH]; intros ds K; [exact K|]. cbn [fold_left]. apply IH. apply call_ok; assumption. }
  apply G. apply init_ok.
Qed.
End Run.

(** after any history of calls, the data set has every block of this process at its number, with the fields the device held at the last call that asked for data, and nothing else *)
Theorem C152_current_solution : forall total mb calls now later, Forall solverBlock mb -> NoDup (map cb_num mb) -> (forall b, In b mb -> (cb_num b < total)%nat) ->
  Forall (fun c => sameBlocks mb (snd c)) calls -> sameBlocks mb now -> Forall (fun c => fst c = false) later ->
  let ds := runOf total mb (calls ++ (true, now) :: later) in
  List.length ds = total /\
  (forall b, In b now -> exists g, nth_error ds (cb_num b) = Some (Some g) /\ showsNodes b g /\ showsFields b (cb_dq b) (cb_dQ b) g) /\
  (forall n, (n < total)%nat -> ~ In n (map cb_num mb) -> nth_error ds n = Some None).
Proof.
  intros total mb calls now later SB ND LT F S L ds.
  assert (E : ds = call true now (runOf total mb calls)).
  { unfold ds, runOf. rewrite fold_left_app. cbn [fold_left fst snd]. generalize (call true now (fold_left (fun ds c => call (fst c) (snd c) ds) calls (init total mb))). clear - L. induction L as [|c l H L IH]; intros d; [reflexivity|]. cbn [fold_left]. rewrite H. apply IH. }
  rewrite E. destruct (call_ok total mb SB ND true now _ S (run_ok total mb SB ND LT calls F)) as [(K1 & K2 & K3) P]. split; [exact K1|]. split; [apply P; reflexivity|exact K3].
Qed.
(** before the first such call it has the fields the host held when it was made *)
Theorem C152_initial : forall total mb later, Forall solverBlock mb -> NoDup (map cb_num mb) -> (forall b, In b mb -> (cb_num b < total)%nat) -> Forall (fun c => fst c = false) later ->
  forall b, In b mb -> exists g, nth_error (runOf total mb later) (cb_num b) = Some (Some g) /\ showsNodes b g /\ showsFields b (cb_q b) (cb_Q b) g.
Proof.
  intros total mb later SB ND LT L b I.
  assert (E : runOf total mb later = init total mb) by (unfold runOf; generalize (init total mb); clear - L; induction L as [|c l H L IH]; intros d; [reflexivity|]; cbn [fold_left]; rewrite H; apply IH).
  rewrite E. exists (initGrid b). split; [apply (init_ok total mb SB ND LT); exact I|]. apply init_shows. rewrite Forall_forall in SB. auto.
Qed.
(** a species whose name is that of a field takes its place: with a species "T" the temperature is lost *)
Theorem C152_name_clash_refuted : exists b, 2 <= ni (cb_d b) /\ 2 <= nj (cb_d b) /\ 2 <= nk (cb_d b) /\ NoDup (cb_species b) /\
  cellValue (callGrid b (initGrid b)) "T" 0 = Some [cb_dq b (cb_ng b) (cb_ng b) (cb_ng b) 5] /\ cb_dq b (cb_ng b) (cb_ng b) (cb_ng b) 4 <> cb_dq b (cb_ng b) (cb_ng b) (cb_ng b) 5 /\
  ~ In [cb_dq b (cb_ng b) (cb_ng b) (cb_ng b) 4] (List.concat (map snd (vg_cells (callGrid b (initGrid b))))).
Proof.
  set (f := fun (_ _ _ l : Z) => if l =? 4 then 300%R else 0%R). set (b := mkCB 0 (mkDims 2 2 2) 1 ["T"; "N2"]%string (fun _ _ _ _ => 0%R) f f f f).
  exists b. cbn [cb_d cb_species cb_ng cb_dq b ni nj nk]. split; [lia|]. split; [lia|]. split; [lia|].
  split; [constructor; [cbn [In]; intros [H|[]]; discriminate|constructor; [intros []|constructor]]|]. split; [reflexivity|]. split; [unfold f; cbn; lra|].
  match goal with |- ~ In _ ?x => let y := eval cbv -[Rplus Rminus Rmult IZR] in x in change x with y end. unfold f. cbn [Z.eqb Pos.eqb]. cbn [In].
  intros H. repeat destruct H as [H|H]; try contradiction; try discriminate; injection H as H; lra.
Qed.
Example C152_nonvacuous : let b := mkCB 3 (mkDims 3 2 2) 2 ["O2"; "N2"]%string (fun c i j k => IZR (c + i + j + k)) (fun i j k l => IZR l) (fun i j k l => IZR l) (fun i j k l => IZR i) (fun i j k l => IZR j) in
  solverBlock b /\ sameBlocks [b] [b] /\ exists g, nth_error (runOf 5 [b] [(true, [b]); (false, [b])]) 3 = Some (Some g) /\ cellValue g "O2" (cellId (cb_d b) 1 0 0) = Some [3%R].
Proof.
  intros b. assert (S : solverBlock b).
  { unfold solverBlock, b; cbn [cb_d cb_species ni nj nk]. split; [lia|]. split; [lia|]. split; [lia|]. split; [discriminate|]. cbn [app]. repeat (constructor; [cbn [In]; intros H; repeat destruct H as [H|H]; try contradiction; discriminate|]). constructor. }
  assert (Sa : sameBlocks [b] [b]) by (constructor; [repeat split|constructor]). split; [exact S|]. split; [exact Sa|].
  destruct (C152_current_solution 5 [b] [] [b] [(false, [b])]) as (_ & P & _); auto.
  { constructor; [intros []|constructor]. } { intros x [<-|[]]. cbn. lia. }
  destruct (P b (or_introl eq_refl)) as (g & E & _ & _ & _ & V). exists g. split; [exact E|]. destruct (V 1 0 0) as (_ & _ & _ & _ & Y & Y1 & _ & Y2); try (cbn; lia).
  specialize (Y2 0%nat ltac:(cbn; lia)). cbn [cb_species b map] in Y1. destruct Y as [|y Y]; [discriminate|]. cbn [map] in Y1. injection Y2 as Y2. injection Y1 as Y1 _. refine (eq_trans Y1 _). rewrite Y2. reflexivity.
Qed.
Print Assumptions C152_current_solution.
Print Assumptions C152_initial.
Print Assumptions C152_name_clash_refuted.
