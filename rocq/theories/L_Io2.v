(** Lemmas about restart files. *)
From Coq Require Import Reals ZArith NArith String Ascii List Bool Lia Lra Permutation.
From Verif Require Import M_Topology M_Halo M_Grid M_Metrics M_Procs L_Procs S_Procs P_Procs M_Io S_Io L_Io.
Import ListNotations.
Open Scope Z_scope.

(** ** groups *)
Lemma group_gen ds : forall acc, NoDup (map fst (acc ++ ds)) -> foldM (fun (g : list (text * data)) '(k, v) => create g k v) ds acc = Some (acc ++ ds).
Proof.
  induction ds as [|[k v] ds IH]; intros acc ND; cbn [foldM]; [rewrite app_nil_r; reflexivity | ].
  assert (N : assoc acc k = None). { apply assoc_none. rewrite map_app in ND. cbn [map fst] in ND. apply NoDup_remove_2 in ND. intros I. apply ND. apply in_or_app. left. exact I. }
  unfold create at 1. rewrite N, IH by (rewrite <- app_assoc; exact ND). rewrite <- app_assoc. reflexivity.
Qed.
Lemma group_ok ds : NoDup (map fst ds) -> group ds = Some ds. Proof. intros H. unfold group. rewrite (group_gen ds []) by exact H. reflexivity. Qed.
Lemma names_split species : species <> [] -> varNames species ++ [lastName species] = baseNames ++ species.
Proof. intros H. unfold varNames, lastName. rewrite <- app_assoc. f_equal. symmetry. apply app_removelast_last. exact H. Qed.
Lemma combine_snd {A B} : forall (l : list A) (l' : list B), List.length l = List.length l' -> map snd (combine l l') = l'.
Proof. induction l as [|a l IH]; intros [|b l'] H; try discriminate; [reflexivity | ]. cbn [combine map snd]. rewrite IH by (injection H as H; exact H). reflexivity. Qed.
Lemma combine_fst {A B} : forall (l : list A) (l' : list B), List.length l = List.length l' -> map fst (combine l l') = l.
Proof. induction l as [|a l IH]; intros [|b l'] H; try discriminate; [reflexivity | ]. cbn [combine map fst]. rewrite IH by (injection H as H; exact H). reflexivity. Qed.
Lemma upto_len {A} (l : list A) : List.length (upto (Z.of_nat (List.length l))) = List.length l. Proof. rewrite upto_length. lia. Qed.
Lemma result_names rnd wh b : map fst (resultData rnd wh b) = (if io_solver b then [t "rho"] else []) ++ varNames (io_species b) ++ [lastName (io_species b)].
Proof.
  unfold resultData. rewrite !map_app. f_equal; [destruct (io_solver b); reflexivity | ]. f_equal.
  rewrite map_map. rewrite (map_ext _ snd) by (intros [j n]; reflexivity). apply combine_snd, upto_len.
Qed.
Lemma result_nodup rnd wh b : goodNames (io_species b) -> NoDup (map fst (resultData rnd wh b)).
Proof.
  intros [NE ND]. rewrite result_names. rewrite names_split by exact NE. destruct (io_solver b); [exact ND | ]. cbn [app]. apply NoDup_cons_iff in ND. apply ND.
Qed.
Lemma combine_upto {A} (l : list A) m x : nth_error l (Z.to_nat m) = Some x -> 0 <= m -> In (m, x) (combine (upto (Z.of_nat (List.length l))) l).
Proof.
  intros H P. assert (L : (Z.to_nat m < List.length l)%nat) by (apply nth_error_Some; congruence).
  assert (E : nth (Z.to_nat m) (combine (upto (Z.of_nat (List.length l))) l) (0, x) = (m, x)).
  { rewrite combine_nth by apply upto_len. rewrite upto_nth by lia. f_equal. apply nth_error_nth with (d := x) in H. exact H. }
  rewrite <- E. apply nth_In. rewrite combine_length, upto_len. lia.
Qed.
Lemma result_var rnd wh b m name : goodNames (io_species b) -> 0 <= m -> nth_error (varNames (io_species b)) (Z.to_nat m) = Some name ->
  assoc (resultData rnd wh b) name = Some (DArr (map rnd (flat wh b (fun x y z => io_q b x y z m)))).
Proof.
  intros G P H. apply assoc_in; [apply result_nodup; exact G | ]. unfold resultData. apply in_or_app. right. apply in_or_app. left.
  apply in_map_iff. exists (m, name). split; [reflexivity | apply combine_upto; assumption].
Qed.
Lemma result_last rnd wh b : goodNames (io_species b) -> assoc (resultData rnd wh b) (lastName (io_species b)) = Some (DArr (map rnd (flat wh b (lastSpecies b)))).
Proof. intros G. apply assoc_in; [apply result_nodup; exact G | ]. unfold resultData. apply in_or_app. right. apply in_or_app. right. left. reflexivity. Qed.
Lemma result_rho rnd wh b : goodNames (io_species b) -> io_solver b = true -> assoc (resultData rnd wh b) (t "rho") = Some (DArr (map rnd (flat wh b (io_rho b)))).
Proof. intros G S. apply assoc_in; [apply result_nodup; exact G | ]. unfold resultData. rewrite S. apply in_or_app. left. left. reflexivity. Qed.
Lemma result_shape rnd wh b k v : assoc (resultData rnd wh b) k = Some v -> exists a, v = DArr (map rnd (flat wh b a)).
Proof.
  intros H. apply assoc_some_in in H. unfold resultData in H. apply in_app_or in H. destruct H as [H | H].
  - destruct (io_solver b); [ | destruct H]. destruct H as [H | []]. injection H as _ <-. eauto.
  - apply in_app_or in H. destruct H as [H | [H | []]]; [ | injection H as _ <-; eauto]. apply in_map_iff in H. destruct H as ([j n] & E & _). injection E as _ <-. eauto.
Qed.
Lemma flat_length b a : goodDims (io_dims b) -> List.length (flat false b a) = Z.to_nat ((ni (io_dims b) - 1) * (nj (io_dims b) - 1) * (nk (io_dims b) - 1)).
Proof. intros (A & B & C). unfold flat, cc, haloOf. cbn [andb]. change (2 * 0) with 0. rewrite ravelF_length by lia. rewrite !Z.add_0_r. reflexivity. Qed.
Lemma lastSpecies_spec b i j k : lastSpecies b i j k = (1 - speciesSum (List.length (io_species b)) (io_q b) i j k)%R.
Proof. unfold lastSpecies. destruct (Nat.eqb_spec (List.length (io_species b)) 1) as [-> | _]; [unfold speciesSum; cbn; ring | reflexivity]. Qed.
Lemma speciesSum_spec b i j k : speciesSum (List.length (io_species b)) (io_q b) (io_ng b + i) (io_ng b + j) (io_ng b + k) = otherFractions b i j k.
Proof.
  unfold speciesSum, otherFractions, cellVar, upto. replace (Z.to_nat (Z.of_nat (List.length (io_species b)) - 1)) with (List.length (io_species b) - 1)%nat by lia.
  generalize (List.length (io_species b) - 1)%nat. intros n. assert (X : forall s : nat, fold_right (fun (c : Z) (s : R) => Rplus (io_q b (io_ng b + i) (io_ng b + j) (io_ng b + k) (5 + c)) s) 0%R (map Z.of_nat (seq s n)) =
    fold_right Rplus 0%R (map (fun c => io_q b (io_ng b + i) (io_ng b + j) (io_ng b + k) (Z.of_nat c)) (seq (5 + s) n))).
  { induction n as [|n IH]; intros s; [reflexivity | ]. cbn [seq map fold_right]. rewrite IH. f_equal. f_equal. rewrite Nat2Z.inj_add. reflexivity. }
  apply X.
Qed.
(** ** reading *)
Definition cellsOf (b : ioBlock) (v a : array3 R) : array3 R := setSlice (ni (io_dims b) - 1) (nj (io_dims b) - 1) (nk (io_dims b) - 1) (io_ng b) v a.
Lemma read_vars (qf : h5) b g (vals : text -> option (array3 R)) : assoc qf (resS (io_num b)) = Some g ->
  (forall nm, match assoc g nm with None => vals nm = None | Some (DArr l) => exists v, reshapeF (ni (io_dims b) - 1) (nj (io_dims b) - 1) (nk (io_dims b) - 1) l = Some v /\ vals nm = Some v | Some _ => False end) ->
  forall l q, NoDup (map fst l) -> exists q', foldM (readVar qf b) l q = Some q' /\
    (forall m nm, In (m, nm) l -> forall i j k, q' i j k m = match vals nm with None => q i j k m | Some v => cellsOf b v (fun i j k => q i j k m) i j k end) /\
    (forall m, ~ In m (map fst l) -> forall i j k, q' i j k m = q i j k m).
Proof.
  intros A V. induction l as [|[m0 n0] l IH]; intros q ND; cbn [foldM]; [exists q; split; [reflexivity | split; [intros m nm [] | reflexivity]] | ].
  cbn [map fst] in ND. apply NoDup_cons_iff in ND. destruct ND as [N ND]. 
  assert (E : exists q1, readVar qf b q (m0, n0) = Some q1 /\ (forall i j k, q1 i j k m0 = match vals n0 with None => q i j k m0 | Some v => cellsOf b v (fun i j k => q i j k m0) i j k end) /\ forall m, m <> m0 -> forall i j k, q1 i j k m = q i j k m).
  { unfold readVar. rewrite A. cbn [fst snd]. specialize (V n0). destruct (assoc g n0) as [[z | r | arr] | ]; [destruct V | destruct V | | ].
    - destruct V as (v & -> & ->). eexists. split; [reflexivity | ]. split; [intros i j k; cbv beta; rewrite Z.eqb_refl; reflexivity | intros m M i j k; cbv beta; destruct (Z.eqb_spec m m0); [contradiction | reflexivity]].
    - rewrite V. exists q. split; [reflexivity | ]. split; reflexivity. }
  destruct E as (q1 & -> & E1 & E2). destruct (IH q1 ND) as (q' & E & F1 & F2). exists q'. split; [exact E | ]. split.
  - intros m nm [I | I] i j k; [injection I as <- <-; rewrite F2 by exact N; apply E1 | ]. assert (M : m <> m0) by (intros ->; apply N; exact (in_map fst _ _ I)). rewrite (F1 m nm I). destruct (vals nm); [ | apply E2; exact M]. unfold cellsOf, setSlice. rewrite (E2 m M). reflexivity.
  - intros m M i j k. cbn [map fst In] in M. rewrite F2 by tauto. apply E2. intros ->. tauto.
Qed.
(** the file holds this block *)
Definition holdsW (wh : bool) (rnd : R -> R) (qf : h5) (w : ioBlock) : Prop := exists g, assoc qf (resS (io_num w)) = Some g /\ forall k, assoc g k = assoc (resultData rnd wh w) k.
Notation holds := (holdsW false).
Lemma fillHalo_in d ng q i j k l : 0 <= ng -> isCell d i j k -> fillHalo d ng q (ng + i) (ng + j) (ng + k) l = q (ng + i) (ng + j) (ng + k) l.
Proof.
  intros G (A & B & C). unfold fillHalo. repeat match goal with |- context [?a <=? ?b] => replace (a <=? b) with false by (symmetry; apply Z.leb_gt; lia) | |- context [?a <? ?b] => replace (a <? b) with false by (symmetry; apply Z.ltb_ge; lia) end. reflexivity.
Qed.
Lemma cellsOf_in b v a i j k : isCell (io_dims b) i j k -> cellsOf b v a (io_ng b + i) (io_ng b + j) (io_ng b + k) = v i j k.
Proof. intros (A & B & C). apply setSlice_in; lia. Qed.
(** what a reader gets for the variable it calls [name] *)
Definition fileValue (rnd : R -> R) (w : ioBlock) (name : text) (i j k : Z) : option R :=
  match assoc (resultData rnd false w) name with Some (DArr l) => option_map (fun v : array3 R => v i j k) (reshapeF (ni (io_dims w) - 1) (nj (io_dims w) - 1) (nk (io_dims w) - 1) l) | _ => None end.
Lemma read_back rnd lump animate nrt mbNrt mbTme (d : disk) (qf : h5) w r : io_num r = io_num w -> io_dims r = io_dims w -> 0 <= io_ng r -> goodDims (io_dims w) -> goodNames (io_species w) ->
  assoc d (varFileName lump animate nrt (io_num w)) = Some qf -> assoc qf (t "iter") = Some (iterData mbNrt mbTme) -> holds rnd qf w ->
  exists r', readRestartBlock lump animate nrt d r = Some r' /\ io_nrt r' = mbNrt /\ io_tme r' = mbTme /\ io_num r' = io_num r /\ io_dims r' = io_dims r /\ io_ng r' = io_ng r /\ io_species r' = io_species r /\
    forall m name i j k, 0 <= m -> nth_error (varNames (io_species r)) (Z.to_nat m) = Some name -> isCell (io_dims w) i j k ->
      cellVar r' m i j k = match fileValue rnd w name i j k with Some x => x | None => 0%R end.
Proof.
  intros N D NG G GN A It (g & Hg & Hk). unfold readRestartBlock. rewrite N, A. unfold inGroup. rewrite It.
  change (assoc (iterData mbNrt mbTme) (t "nrt")) with (Some (DInt (Z.of_N mbNrt))). change (assoc (iterData mbNrt mbTme) (t "tme")) with (Some (DReal mbTme)). cbn [getInt getReal].
  set (vals := fun nm => match assoc (resultData rnd false w) nm with Some (DArr l) => reshapeF (ni (io_dims w) - 1) (nj (io_dims w) - 1) (nk (io_dims w) - 1) l | _ => None end).
  assert (GI : assoc qf (resS (io_num r)) = Some g) by (rewrite N; exact Hg).
  destruct (read_vars qf r g vals GI) with (l := combine (upto (Z.of_nat (List.length (varNames (io_species r))))) (varNames (io_species r))) (q := fun _ _ _ _ : Z => 0%R) as (q' & E & F1 & _).
  { intros nm. rewrite Hk, D. unfold vals. destruct (assoc (resultData rnd false w) nm) as [v | ] eqn:Ev; [ | reflexivity]. destruct (result_shape _ _ _ _ _ Ev) as [a ->].
    assert (X : exists v, reshapeF (ni (io_dims w) - 1) (nj (io_dims w) - 1) (nk (io_dims w) - 1) (map rnd (flat false w a)) = Some v). { unfold reshapeF. rewrite map_length, flat_length, Nat.eqb_refl by exact G. eauto. }
    destruct X as [v X]. exists v. rewrite X. split; reflexivity. }
  { rewrite combine_fst by apply upto_len. apply upto_NoDup. }
  rewrite E. eexists. split; [reflexivity | ]. cbn [io_nrt io_tme io_num io_dims io_ng io_species]. split; [apply N2Z.id | ]. split; [reflexivity | ]. split; [reflexivity | ]. split; [reflexivity | ]. split; [reflexivity | ]. split; [reflexivity | ].
  intros m name i j k M Hm C. unfold cellVar. cbn [io_q io_ng].
  assert (Q : q' (io_ng r + i) (io_ng r + j) (io_ng r + k) m = match fileValue rnd w name i j k with Some x => x | None => 0%R end).
  { rewrite (F1 m name (combine_upto _ _ _ Hm M)). unfold fileValue, vals. destruct (assoc (resultData rnd false w) name) as [[z | z | l] | ]; try reflexivity. destruct (reshapeF _ _ _ l); [ | reflexivity]. cbn [option_map]. apply cellsOf_in. rewrite D. exact C. }
  destruct (io_solver r); [ | exact Q]. rewrite fillHalo_in; [exact Q | exact NG | rewrite D; exact C].
Qed.
