(** C126: species properties come from the user's file, failing that from the library, in the order of the species.
    C127: where the species file is looked for.  C128: every view a selected kernel reads exists. *)
From Coq Require Import Reals ZArith String List Bool Lia Lra.
From Verif Require Import M_Config S_Config P_Config P_Config2 M_Species S_Species.
Import ListNotations.
Open Scope string_scope.

Lemma smapM_spec {A B} (f : A -> spRes B) l : forall l', smapM f l = SOk l' -> Forall2 (fun x y => f x = SOk y) l l'.
Proof.
  induction l as [|x r IH]; intros l' H; cbn [smapM] in H; [assert (l' = []) by congruence; subst; constructor|].
  destruct (f x) as [y|] eqn:E; [|discriminate]. cbn [sbind] in H. destruct (smapM f r) as [ys|]; [|discriminate]. cbn [sbind] in H.
  assert (l' = y :: ys) by congruence. subst. constructor; [exact E|now apply IH].
Qed.
Lemma smapM_ok {A B} (f : A -> spRes B) l l' : Forall2 (fun x y => f x = SOk y) l l' -> smapM f l = SOk l'.
Proof. induction 1 as [|x y l l' H _ IH]; [reflexivity|]. cbn [smapM]. rewrite H. cbn [sbind]. rewrite IH. reflexivity. Qed.
Lemma smapM_err {A B} (f : A -> spRes B) l x e : In x l -> f x = SErr e -> exists e', smapM f l = SErr e'.
Proof.
  intros Hin Hf. induction l as [|a r IH]; [destruct Hin|]. cbn [smapM]. destruct Hin as [->|Hin]; [rewrite Hf; cbn [sbind]; eauto|].
  destruct (f a); cbn [sbind]; [|eauto]. destruct (IH Hin) as (e' & ->). cbn [sbind]. eauto.
Qed.
Lemma Forall2_nth {A B} (P : A -> B -> Prop) l l' : Forall2 P l l' -> forall i x, nth_error l i = Some x -> exists y, nth_error l' i = Some y /\ P x y.
Proof. induction 1 as [|a b l l' H _ IH]; intros [|i] x E; cbn in E; try discriminate; [assert (a = x) by congruence; subst; exists b; now split|]. cbn. now apply IH. Qed.
Lemma Forall2_mono {A B} (P Q : A -> B -> Prop) l l' : (forall x y, P x y -> Q x y) -> Forall2 P l l' -> Forall2 Q l l'.
Proof. intros H. induction 1; constructor; auto. Qed.
Lemma Forall2_in {A B} (P : A -> B -> Prop) l l' : Forall2 P l l' -> forall x, In x l -> exists y, P x y.
Proof. induction 1 as [|a b l l' H _ IH]; intros x []; [subst; now exists b|now apply IH]. Qed.
Lemma Forall2_ex {A B} (P : A -> B -> Prop) l : (forall x, In x l -> exists y, P x y) -> exists l', Forall2 P l l'.
Proof.
  induction l as [|a r IH]; intros H; [exists []; constructor|]. destruct (H a (or_introl eq_refl)) as (b & Hb). destruct IH as (l' & Hl); [intros x Hx; apply H; now right|].
  exists (b :: l'). now constructor.
Qed.

(** ** one value *)
Lemma userSilent_dict d key : lookup key d = None -> userSilent (SpDict d) key.
Proof. intros H v (d' & E & L). assert (d = d') by congruence. subst. congruence. Qed.
Lemma userSilent_other u key : (forall d, u <> SpDict d) -> userSilent u key.
Proof. intros H v (d' & E & _). exact (H _ E). Qed.
Lemma fromLibrary_iff lib sp key v : fromLibrary lib sp key = SOk v <-> libraryGives lib sp key v.
Proof.
  unfold fromLibrary, libraryGives. split.
  - destruct (lookup sp lib) as [[| |d]|]; try discriminate. destruct (lookup key d) as [w|] eqn:E; [|discriminate]. intros H. exists d. split; congruence.
  - intros (d & -> & ->). reflexivity.
Qed.
Lemma pickValue_iff lib key e v : pickValue lib key e = SOk v <-> valueOf lib e key v.
Proof.
  unfold pickValue, valueOf. destruct e as [sp u]. cbn [fst snd]. destruct u as [| |d].
  1,2: rewrite fromLibrary_iff; split; [intros H; right; split; [apply userSilent_other; discriminate|exact H]|intros [(d & H & _)|[_ H]]; [discriminate|exact H]].
  destruct (lookup key d) as [w|] eqn:E.
  - split; [intros H; left; exists d; split; congruence|]. intros [(d' & H & L)|[H _]]; [assert (d = d') by congruence; subst; congruence|]. exfalso. apply (H w). exists d. now split.
  - rewrite fromLibrary_iff. split; [intros H; right; split; [now apply userSilent_dict|exact H]|]. intros [(d' & H & L)|[_ H]]; [assert (d = d') by congruence; subst; congruence|exact H].
Qed.
Lemma valueOf_unique lib e key v v' : valueOf lib e key v -> valueOf lib e key v' -> v = v'.
Proof. rewrite <- !pickValue_iff. congruence. Qed.

Definition standsFor (parse : string -> option R) (v : val) (f : flt) : Prop := (exists r, f = Num r /\ numberIs parse v r) \/ (f = NaN /\ v = VNull).
Lemma toFlt_iff parse v f : toFlt parse v = SOk f <-> standsFor parse v f.
Proof.
  unfold standsFor, numberIs. destruct v as [r|s| |l|]; cbn [toFlt].
  - split; [intros H; left; exists r; split; [congruence|now left]|]. intros [(r' & -> & [H|(s & H & _)])|[_ H]]; congruence.
  - destruct (parse s) as [r|] eqn:E.
    + split; [intros H; left; exists r; split; [congruence|right; now exists s]|]. intros [(r' & -> & [H|(s' & H & P)])|[_ H]]; try discriminate. assert (s = s') by congruence. subst. congruence.
    + split; [discriminate|]. intros [(r' & -> & [H|(s' & H & P)])|[_ H]]; try discriminate. assert (s = s') by congruence. subst. congruence.
  - split; [intros H; right; split; [congruence|reflexivity]|]. intros [(r' & -> & [H|(s & H & _)])|[-> _]]; [discriminate|discriminate|reflexivity].
  - split; [discriminate|]. intros [(r' & -> & [H|(s & H & _)])|[_ H]]; discriminate.
  - split; [discriminate|]. intros [(r' & -> & [H|(s & H & _)])|[_ H]]; discriminate.
Qed.


Lemma F2_length {A B} (P : A -> B -> Prop) l l' : Forall2 P l l' -> List.length l = List.length l'.
Proof. induction 1; cbn; congruence. Qed.
Lemma rowOf_iff parse v r : rowOf parse v = SOk r <-> exists vs, v = VL vs /\ Forall2 (standsFor parse) vs r.
Proof.
  split.
  - destruct v as [| | |vs|]; try discriminate. cbn [rowOf]. intros H. exists vs. split; [reflexivity|]. apply smapM_spec in H. revert H. apply Forall2_mono. intros x y. apply toFlt_iff.
  - intros (vs & -> & H). cbn [rowOf]. apply smapM_ok. revert H. apply Forall2_mono. intros x y. apply toFlt_iff.
Qed.
Lemma npArray_spec parse prop a : npArray parse prop = SOk a ->
  match a with
  | Texts _ => False
  | D1 l => Forall2 (standsFor parse) prop l
  | D2 rows => Forall2 (fun v r => exists vs, v = VL vs /\ Forall2 (standsFor parse) vs r) prop rows
  end.
Proof.
  assert (S1 : forall p q, smapM (toFlt parse) p = SOk q -> Forall2 (standsFor parse) p q) by (intros p q H; apply smapM_spec in H; revert H; apply Forall2_mono; intros x y; apply toFlt_iff).
  assert (S2 : forall p q, smapM (rowOf parse) p = SOk q -> Forall2 (fun v r => exists vs, v = VL vs /\ Forall2 (standsFor parse) vs r) p q) by (intros p q H; apply smapM_spec in H; revert H; apply Forall2_mono; intros x y; apply rowOf_iff).
  assert (G : forall p, sbind (smapM (toFlt parse) p) (fun l => SOk (D1 l)) = SOk a -> exists l, a = D1 l /\ Forall2 (standsFor parse) p l).
  { intros p H. destruct (smapM (toFlt parse) p) as [q|] eqn:E; [|discriminate]. exists q. split; [cbn [sbind] in H; congruence|now apply S1]. }
  intros H. unfold npArray in H. destruct prop as [|v p]; [apply G in H; destruct H as (l & -> & H); exact H|].
  destruct v as [r|s| |l0|]; try (apply G in H; destruct H as (l & -> & H); exact H).
  destruct (smapM (rowOf parse) (VL l0 :: p)) as [q|] eqn:E; [|discriminate]. cbn [sbind] in H. destruct (forallb _ _); [|discriminate]. assert (a = D2 q) by congruence. subst a. now apply S2.
Qed.
Lemma completeSpecies_inv parse key usersp lib a : completeSpecies parse key usersp lib = SOk a -> exists prop,
  Forall2 (fun e v => valueOf lib e key v) usersp prop /\ usersp <> [] /\ ((exists s, nth_error prop 0 = Some (VS s) /\ a = Texts prop) \/ npArray parse prop = SOk a).
Proof.
  intros Ha. unfold completeSpecies in Ha. destruct (smapM (pickValue lib key) usersp) as [prop|] eqn:EP; [|discriminate]. cbn [sbind] in Ha. apply smapM_spec in EP. exists prop.
  split; [revert EP; apply Forall2_mono; intros x y; apply pickValue_iff|]. pose proof (F2_length _ _ _ EP) as L. destruct prop as [|v p]; [discriminate|]. split; [intros ->; discriminate|].
  destruct v; auto. left. exists s. split; [reflexivity|]. congruence.
Qed.

(** ** C126 *)
(** a property of one number per species: whenever the set-up succeeds the view has one entry per species, in the user's order, standing for the user's value
    or, where the user gives none, the library's (a one-entry list counts as its entry) *)
Theorem C126_scalar_property : forall parse key usersp lib a l,
  completeSpecies parse key usersp lib = SOk a -> createView1 (List.length usersp) a = SOk l ->
  List.length l = List.length usersp /\
  forall i e, nth_error usersp i = Some e -> exists v w f, valueOf lib e key v /\ nth_error l i = Some f /\ (v = w \/ v = VL [w]) /\ standsFor parse w f.
Proof.
  intros parse key usersp lib a l Ha Hl. destruct (completeSpecies_inv _ _ _ _ _ Ha) as (prop & HP & _ & [(s & _ & ->)|HA]); [discriminate|].
  pose proof (npArray_spec _ _ _ HA) as Sp. pose proof (F2_length _ _ _ HP) as L1. destruct a as [t|q|rows]; [destruct Sp| |]; cbn [createView1] in Hl.
  - destruct (Nat.eqb_spec (List.length q) (List.length usersp)) as [E|]; [|discriminate]. assert (q = l) by congruence. subst q. split; [exact E|].
    intros i e Hi. destruct (Forall2_nth _ _ _ HP _ _ Hi) as (v & Hv & Ho). destruct (Forall2_nth _ _ _ Sp _ _ Hv) as (f & Hf & Hs). exists v, v, f. repeat split; auto.
  - destruct (Nat.eqb_spec (List.length rows) (List.length usersp)) as [E|]; [|discriminate]. destruct rows as [|[|x []] [|]]; try discriminate. assert (l = [x]) by congruence. subst l. split; [exact E|].
    intros i e Hi. destruct (Forall2_nth _ _ _ HP _ _ Hi) as (v & Hv & Ho). destruct (Forall2_nth _ _ _ Sp _ _ Hv) as (r & Hr & vs & -> & Hs).
    destruct i as [|[|]]; cbn in Hr; try discriminate. assert (r = [x]) by congruence. subst r. inversion Hs as [|w y t t' Hw Ht E1 E2]. subst. inversion Ht. subst. exists (VL [w]), w, x. repeat split; auto.
Qed.
(** it does succeed when every species has a number, the first of them not written as text *)
Theorem C126_scalar_succeeds : forall parse key usersp lib vs rs, usersp <> [] ->
  Forall2 (fun e v => valueOf lib e key v) usersp vs -> Forall2 (numberIs parse) vs rs -> (forall s, nth_error vs 0 <> Some (VS s)) ->
  exists a, completeSpecies parse key usersp lib = SOk a /\ createView1 (List.length usersp) a = SOk (map Num rs).
Proof.
  intros parse key usersp lib vs rs Hne HP HN H0. pose proof (F2_length _ _ _ HP) as L1. pose proof (F2_length _ _ _ HN) as L2.
  exists (D1 (map Num rs)). unfold completeSpecies. rewrite (smapM_ok _ _ vs) by (revert HP; apply Forall2_mono; intros x y; apply pickValue_iff). cbn [sbind].
  assert (F : smapM (toFlt parse) vs = SOk (map Num rs)).
  { apply smapM_ok. clear - HN. induction HN as [|v r vs rs H _ IH]; cbn [map]; constructor; [|exact IH]. apply toFlt_iff. left. now exists r. }
  split; [|cbn [createView1]; rewrite map_length, <- L2, <- L1, Nat.eqb_refl; reflexivity].
  destruct vs as [|v vs']; [destruct usersp; [congruence|discriminate]|].
  assert (HV : numberIs parse v (hd 0%R rs)) by (inversion HN; subst; assumption).
  destruct v as [r|s| |l|]; [| | | |]; unfold npArray; try (rewrite F; reflexivity); [exfalso; apply (H0 s); reflexivity|]. destruct HV as [E|(s & E & _)]; discriminate.
Qed.
(** a species with neither a value of its own nor one in the library stops the set-up *)
Theorem C126_missing_raises : forall parse key usersp lib e, In e usersp -> (forall v, ~ valueOf lib e key v) -> exists x, completeSpecies parse key usersp lib = SErr x.
Proof.
  intros parse key usersp lib e He Hno. destruct (pickValue lib key e) as [v|x] eqn:E; [exfalso; apply (Hno v), pickValue_iff, E|].
  destruct (smapM_err _ _ _ _ He E) as (x' & H). exists x'. unfold completeSpecies. rewrite H. reflexivity.
Qed.
(** rows of coefficients (NASA7, fifteen to a species) *)
Theorem C126_vector_property : forall parse key usersp lib a rows k, completeSpecies parse key usersp lib = SOk a -> createView2 (List.length usersp) k a = SOk rows ->
  (forall e v, In e usersp -> valueOf lib e key v -> exists vs, v = VL vs) ->
  List.length rows = List.length usersp /\
  forall i e, nth_error usersp i = Some e -> exists vs r, valueOf lib e key (VL vs) /\ nth_error rows i = Some r /\ List.length r = k /\ Forall2 (standsFor parse) vs r.
Proof.
  intros parse key usersp lib a rows k Ha Hl Hv. destruct (completeSpecies_inv _ _ _ _ _ Ha) as (prop & HP & Hne & [(s & _ & ->)|HA]); [discriminate|].
  pose proof (npArray_spec _ _ _ HA) as Sp. pose proof (F2_length _ _ _ HP) as L1. destruct a as [t|q|rs]; [destruct Sp| |]; cbn [createView2] in Hl.
  - exfalso. destruct usersp as [|e us]; [congruence|]. inversion HP as [|? v ? p Hv0 _]. subst. destruct (Hv e v (or_introl eq_refl) Hv0) as (vs & ->). inversion Sp as [|? ? ? ? [(r & _ & [H|(s & H & _)])|[_ H]] _]; discriminate.
  - destruct (Nat.eqb_spec (List.length rs) (List.length usersp)) as [E|]; [|discriminate]. destruct (forallb _ rs) eqn:Ek; [|discriminate]. cbn [andb] in Hl. assert (rs = rows) by congruence. subst rs. split; [exact E|].
    intros i e Hi. destruct (Forall2_nth _ _ _ HP _ _ Hi) as (v & Hvv & Ho). destruct (Forall2_nth _ _ _ Sp _ _ Hvv) as (r & Hr & vs & -> & Hs). exists vs, r. split; [exact Ho|]. split; [exact Hr|]. split; [|exact Hs].
    rewrite forallb_forall in Ek. apply Nat.eqb_eq, Ek. now apply nth_error_In in Hr.
Qed.
(** a species given by name only, as in the list form of spdata, takes all its values from the library; the order is that of first mention *)
Lemma dedup_in l : forall seen x, In x (dedup seen l) <-> In x l /\ ~ In x seen.
Proof.
  induction l as [|a r IH]; intros seen x; cbn [dedup]; [cbn; tauto|]. destruct (existsb (String.eqb a) seen) eqn:E.
  - rewrite IH. apply existsb_exists in E. destruct E as (y & Hy & Ey). apply String.eqb_eq in Ey. subst y. split; [intros [H1 H2]; split; [now right|exact H2]|]. intros [[->|H1] H2]; [contradiction|now split].
  - cbn [In]. rewrite IH. assert (~ In a seen). { intros H. assert (existsb (String.eqb a) seen = true) by (apply existsb_exists; exists a; split; [exact H|apply String.eqb_refl]). congruence. }
    split.
    + intros [->|[H1 H2]]; [split; [now left|assumption]|]. split; [now right|]. intros H3. apply H2. now right.
    + intros [[->|H1] H2]; [now left|]. destruct (string_dec a x) as [->|Hne]; [now left|]. right. split; [exact H1|]. intros [H3|H3]; [congruence|contradiction].
Qed.
Lemma dedup_nodup l : forall seen, NoDup (dedup seen l).
Proof.
  induction l as [|a r IH]; intros seen; cbn [dedup]; [constructor|]. destruct (existsb _ _); [apply IH|]. constructor; [|apply IH]. intros H. apply dedup_in in H. destruct H as [_ H]. apply H. now left.
Qed.
Lemma dedup_id l : forall seen, NoDup l -> (forall x, In x l -> ~ In x seen) -> dedup seen l = l.
Proof.
  induction l as [|a r IH]; intros seen H1 H2; [reflexivity|]. cbn [dedup]. inversion H1 as [|? ? H3 H4]. subst. destruct (existsb (String.eqb a) seen) eqn:E.
  - apply existsb_exists in E. destruct E as (y & Hy & Ey). apply String.eqb_eq in Ey. subst y. exfalso. exact (H2 a (or_introl eq_refl) Hy).
  - f_equal. apply IH; [exact H4|]. intros x Hx [->|Hs]; [contradiction|]. exact (H2 x (or_intror Hx) Hs).
Qed.
Theorem C126_names_only : forall lib names, NoDup (map fst (fromNames names)) /\ (forall n, In n (map fst (fromNames names)) <-> In n names) /\
  (NoDup names -> map fst (fromNames names) = names) /\
  forall e key v, In e (fromNames names) -> (valueOf lib e key v <-> libraryGives lib (fst e) key v).
Proof.
  intros lib names. assert (M : map fst (fromNames names) = dedup [] names) by (unfold fromNames; rewrite map_map; cbn [fst]; apply map_id). rewrite M.
  split; [apply dedup_nodup|]. split; [intros n; rewrite dedup_in; cbn; tauto|]. split; [intros H; now apply dedup_id|].
  intros e key v He. unfold fromNames in He. apply in_map_iff in He. destruct He as (n & <- & _). unfold valueOf. cbn [fst snd]. split.
  - intros [(d & H & _)|[_ H]]; [discriminate|exact H].
  - intros H. right. split; [apply userSilent_other; discriminate|exact H].
Qed.
(** an empty field of the user's file hides the library's value and puts nan into the view *)
Theorem C126_blank_refuted : forall parse sp key d lib v r, lookup key d = Some VNull -> libraryGives lib sp key v -> numberIs parse v r ->
  exists a, completeSpecies parse key [(sp, SpDict d)] lib = SOk a /\ createView1 1 a = SOk [NaN].
Proof. intros parse sp key d lib v r Hd _ _. exists (D1 [NaN]). unfold completeSpecies. cbn [smapM]. unfold pickValue. cbn [fst snd]. rewrite Hd. cbn. split; reflexivity. Qed.
(** numbers YAML reads as text, such as 2e-5, are converted for every species but the first, for which they stop the run *)
Theorem C126_first_text_refuted : forall parse key lib t r, parse t = Some r ->
  (exists a, completeSpecies parse key [("A", SpDict [(key, VN r)]); ("B", SpDict [(key, VS t)])] lib = SOk a /\ createView1 2 a = SOk [Num r; Num r]) /\
  exists a x, completeSpecies parse key [("A", SpDict [(key, VS t)]); ("B", SpDict [(key, VN r)])] lib = SOk a /\ createView1 2 a = SErr x.
Proof.
  intros parse key lib t r H. split.
  - exists (D1 [Num r; Num r]). unfold completeSpecies. cbn [smapM]. unfold pickValue. cbn [fst snd lookup]. rewrite String.eqb_refl. cbn [sbind smapM npArray toFlt]. rewrite H. split; reflexivity.
  - eexists _, AttrErr. unfold completeSpecies. cbn [smapM]. unfold pickValue. cbn [fst snd lookup]. rewrite String.eqb_refl. cbn [sbind smapM]. split; reflexivity.
Qed.
(** with a single species a lone number given for NASA7 is spread over all fifteen coefficients *)
Theorem C126_scalar_nasa_refuted : forall parse lib r, exists a, completeSpecies parse "NASA7" [("A", SpDict [("NASA7", VN r)])] lib = SOk a /\ createView2 1 15 a = SOk [repeat (Num r) 15].
Proof. intros parse lib r. exists (D1 [Num r]). split; reflexivity. Qed.
Example C126_nonvacuous : exists lib usersp vs rs, usersp <> [] /\ Forall2 (fun e v => valueOf lib e "MW" v) usersp vs /\ Forall2 (numberIs (fun _ => None)) vs rs /\ (forall s, nth_error vs 0 <> Some (VS s)) /\ rs = [29; 18]%R.
Proof.
  exists [("H2O", SpDict [("MW", VN 18)]); ("Air", SpDict [("MW", VN 30)])], [("Air", SpDict [("MW", VN 29)]); ("H2O", SpNone)], [VN 29; VN 18], [29; 18]%R.
  split; [discriminate|]. split.
  - constructor; [left; eexists; split; reflexivity|]. constructor; [|constructor]. right. split; [apply userSilent_other; discriminate|]. eexists. split; reflexivity.
  - split; [|split; [intros s; discriminate|reflexivity]]. constructor; [now left|]. constructor; [now left|constructor].
Qed.

(** ** C127 *)
(** the file used is the first of: input directory, working directory, database, the path itself; no file at any of them is an error *)
Theorem C127_search_order : forall fs here c s dir, opt c "thermochem" "spdata" = VStr s -> opt c "io" "inputDir" = VStr dir ->
  let places := [dir ++ "/" ++ s; "./" ++ s; here ++ "/database/" ++ s; s] in
  (forall i p d, nth_error places i = Some p -> fs p = Loaded d -> (forall j q, (j < i)%nat -> nth_error places j = Some q -> fs q = Missing) -> findUserSpData fs here c = SOk d) /\
  (forall d, findUserSpData fs here c = SOk d -> exists i p, nth_error places i = Some p /\ fs p = Loaded d /\ forall j q, (j < i)%nat -> nth_error places j = Some q -> fs q = Missing) /\
  ((forall p, In p places -> fs p = Missing) -> findUserSpData fs here c = SErr ValueErr).
Proof.
  intros fs here c s dir Hs Hd places. unfold findUserSpData. rewrite Hs, Hd. change (spLocs dir here s) with places. clearbody places. split; [|split].
  - induction places as [|p0 r IH]; intros [|i] p d Hi Hl Hm; cbn in Hi; try discriminate.
    + assert (p0 = p) by congruence. subst. cbn [firstFile]. now rewrite Hl.
    + cbn [firstFile]. rewrite (Hm 0%nat p0 ltac:(lia) eq_refl). apply (IH i p d Hi Hl). intros j q Hj Hq. apply (Hm (S j) q); [lia|exact Hq].
  - induction places as [|p0 r IH]; intros d H; cbn [firstFile] in H; [discriminate|]. destruct (fs p0) as [| |d0] eqn:E; [|discriminate|].
    + destruct (IH d H) as (i & p & Hi & Hl & Hm). exists (S i), p. split; [exact Hi|]. split; [exact Hl|]. intros [|j] q Hj Hq; cbn in Hq; [congruence|]. apply (Hm j q); [lia|exact Hq].
    + exists 0%nat, p0. split; [reflexivity|]. split; [congruence|]. intros j q Hj. lia.
  - induction places as [|p0 r IH]; intros H; cbn [firstFile]; [reflexivity|]. rewrite (H p0 (or_introl eq_refl)). apply IH. intros p Hp. apply H. now right.
Qed.
(** a file in the database is used when neither directory has one *)
Example C127_nonvacuous : exists c d fs, readConfig [("thermochem", [("spdata", VStr "gri.yaml")])] = Some c /\ opt c "thermochem" "spdata" = VStr "gri.yaml" /\ opt c "io" "inputDir" = VStr "./Input" /\
  findUserSpData fs "/pg" c = SOk d /\ d = [("Air", SpNone)] /\ fs "./gri.yaml" = Missing.
Proof. eexists _, _, (fun p => if String.eqb p "/pg/database/gri.yaml" then Loaded [("Air", SpNone)] else Missing). split; [reflexivity|]. split; [reflexivity|]. split; [reflexivity|]. split; [reflexivity|]. split; reflexivity. Qed.
(** a list of names needs no file *)
Theorem C127_list : forall fs here c l, opt c "thermochem" "spdata" = VList l -> findUserSpData fs here c = SOk (fromNames l).
Proof. intros fs here c l H. unfold findUserSpData. rewrite H. reflexivity. Qed.

(** ** C128 *)
Lemma isStr_same a b : isStr (VStr a) b = String.eqb a b. Proof. reflexivity. Qed.
Theorem C128_views_exist_partial : forall c s, selectFunctions c = Some s -> exists l, createdArrays c = SOk l /\
  forall kernel view, In kernel (speciesKernels s) -> In view (readsViews kernel) ->
    (kernel = "chungDenseGasUnityLewis" -> opt c "thermochem" "eos" = VStr "cubic") -> (In kernel chemistryNames -> opt c "thermochem" "eos" <> VStr "cpg") -> In view l.
Proof.
  intros c s H. apply selected_spec in H. destruct H as [_ _ _ _ [He Hn] _ _ Ht _ Hc]. unfold createdArrays. rewrite He. cbv zeta. rewrite !isStr_same.
  assert (K : forall kernel, In kernel (speciesKernels s) -> kernel = s_eos s \/ s_trans s = Some kernel \/ (In kernel chemistryNames)).
  { intros k Hk. unfold speciesKernels in Hk. destruct Hk as [<-|Hk]; [now left|]. right. apply in_app_or in Hk. destruct Hk as [Hk|Hk].
    - left. destruct (s_trans s); [destruct Hk as [<-|[]]; reflexivity|destruct Hk].
    - right. destruct (truthy (opt c "thermochem" "chemistry")).
      + destruct Hc as (m & _ & Hm & Hc). destruct (isStr _ _); destruct Hc as [E1 E2]; rewrite E1, E2 in Hk; cbn in Hk; destruct Hk as [<-|[]]; exact Hm.
      + destruct Hc as [E1 E2]. rewrite E1, E2 in Hk. destruct Hk. }
  destruct (s_trans s) as [t|] eqn:ET.
  - destruct Ht as (-> & Et & Hin). rewrite Et.
    destruct Hn as [En|[En|[En|[]]]]; rewrite <- En in *; destruct Hin as [Ek|[Ek|[Ek|[Ek|[]]]]]; subst t; cbn -[In];
      (eexists; split; [reflexivity|]; intros k v Hk Hv C1 C2; destruct (K k Hk) as [->|[E|Hch]];
       [cbn in Hv; cbn; tauto
       |assert (k = _) by (symmetry; apply some_inj, E); subst k; first [cbn in Hv; cbn; tauto|exfalso; specialize (C1 eq_refl); congruence]
       |first [exfalso; apply (C2 Hch); reflexivity|destruct Hch as [<-|[<-|[<-|[<-|[]]]]]; cbn in Hv; cbn; tauto]]).
  - rewrite Ht. destruct Hn as [En|[En|[En|[]]]]; rewrite <- En in *; cbn -[In];
      (eexists; split; [reflexivity|]; intros k v Hk Hv C1 C2; destruct (K k Hk) as [->|[E|Hch]];
       [cbn in Hv; cbn; tauto|discriminate|first [exfalso; apply (C2 Hch); reflexivity|destruct Hch as [<-|[<-|[<-|[<-|[]]]]]; cbn in Hv; cbn; tauto]]).
Qed.
(** every accepted choice of dense-gas transport with another equation of state than the cubic one: critical data are read, never created *)
Theorem C128_chung_refuted : forall c s l, selectFunctions c = Some s -> s_trans s = Some "chungDenseGasUnityLewis" -> opt c "thermochem" "eos" <> VStr "cubic" -> createdArrays c = SOk l ->
  forall view, In view ["Tcrit"; "Vcrit"; "acentric"] -> In view (readsViews "chungDenseGasUnityLewis") /\ ~ In view l.
Proof.
  intros c s l H ET Hne Hl view Hv. apply selected_spec in H. destruct H as [_ _ _ _ [He Hn] _ _ Ht _ _]. rewrite ET in Ht. destruct Ht as (Hd & Et & _). rewrite He in Hne.
  unfold createdArrays in Hl. rewrite He, Hd, Et in Hl. cbv zeta in Hl. rewrite !isStr_same in Hl. split; [cbn; cbn in Hv; tauto|].
  destruct Hn as [En|[En|[En|[]]]]; rewrite <- En in *; [| |congruence]; cbn in Hl;
  (match type of Hl with SOk ?x = _ => assert (l = x) by congruence; subst l end; destruct Hv as [<-|[<-|[<-|[]]]]; cbn; intros G; repeat (destruct G as [G|G]; [discriminate|]); destruct G).
Qed.
(** reactions with a calorically perfect gas: the NASA coefficients are read, never created *)
Theorem C128_reacting_cpg_refuted : forall c s l m, selectFunctions c = Some s -> opt c "thermochem" "eos" = VStr "cpg" -> (s_expChem s = Some m \/ s_impChem s = Some m) -> createdArrays c = SOk l ->
  In "NASA7" (readsViews m) /\ ~ In "NASA7" l.
Proof.
  intros c s l m H He Hm Hl. apply selected_spec in H. destruct H as [_ _ _ _ _ _ _ _ _ Hc]. split.
  - destruct (truthy (opt c "thermochem" "chemistry")); [|destruct Hc as [E1 E2]; rewrite E1, E2 in Hm; destruct Hm; discriminate]. destruct Hc as (m' & _ & Hin & Hc).
    assert (m = m') by (destruct (isStr _ _); destruct Hc as [E1 E2]; rewrite E1, E2 in Hm; destruct Hm; congruence). subst m'. destruct Hin as [<-|[<-|[<-|[<-|[]]]]]; cbn; tauto.
  - unfold createdArrays in Hl. rewrite He in Hl. cbn [isStr] in Hl. cbn -[contains opt truthy In] in Hl.
    destruct (truthy (opt c "RHS" "diffusion")); [destruct (opt c "thermochem" "trans") as [| | | |t| |]; try discriminate; destruct (contains _ t); [|destruct (String.eqb t "constantProps"); [|destruct (contains _ t); [|discriminate]]]|];
      (match type of Hl with SOk ?x = _ => assert (l = x) by congruence; subst l end; intros X; cbn in X; repeat (destruct X as [X|X]; [discriminate|]); destruct X).
Qed.
(** both kinds pass validation and are built; nor is the number of species compared with that of the mechanism *)
Definition chungAir : option config := readConfig [("thermochem", [("trans", VStr "chungDenseGasUnityLewis"); ("eos", VStr "tpg")]); ("RHS", [("diffusion", VBool true)])].
Definition griAir : option config := readConfig [("thermochem", [("chemistry", VBool true); ("mechanism", VStr "chem_GRI30")])].
Theorem C128_accepted_refuted : (exists c c' s, chungAir = Some c /\ validateConfig (fun _ => None) c = Some c' /\ selectFunctions c' = Some s /\ s_trans s = Some "chungDenseGasUnityLewis" /\ s_eos s = "tpg") /\
  exists c c' s, griAir = Some c /\ validateConfig (fun _ => None) c = Some c' /\ selectFunctions c' = Some s /\ s_expChem s = Some "chem_GRI30" /\ s_eos s = "cpg" /\
    forall fs here, exists d, findUserSpData fs here c' = SOk d /\ Some (List.length d) <> mechanismSpecies "chem_GRI30".
Proof.
  split; (eexists _, _, _; split; [reflexivity|]; split; [reflexivity|]; split; [reflexivity|]; split; [reflexivity|]).
  - reflexivity.
  - split; [reflexivity|]. intros fs here. eexists. split; [reflexivity|]. discriminate.
Qed.
Print Assumptions C126_scalar_property.
Print Assumptions C127_search_order.
Print Assumptions C128_views_exist_partial.
