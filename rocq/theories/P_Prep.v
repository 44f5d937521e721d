(** C151: the values given for a boundary are the ones its condition uses.  Vocabulary: S_Prep, S_Bc.  Model: M_Prep, M_Bc. *)
From Coq Require Import Reals ZArith NArith String Ascii List Bool Lia Lra FunctionalExtensionality.
From Verif Require Import M_Topology M_Halo M_Grid M_Metrics M_FluxKernels M_Bc S_Bc L_Bc P_Bc L_Halo1 M_Procs L_Procs M_Io L_Io M_ReadBcs S_ReadBcs P_ReadBcs M_Prep S_Prep.
Import ListNotations.
Open Scope list_scope.
Open Scope Z_scope.

Lemma asks_iff v : wantsProfile v = true <-> asksProfile v.
Proof.
  unfold wantsProfile, asksProfile. destruct (get v "profile") as [[r| |]|]; cbn [truthy].
  - destruct (Req_EM_T r 0) as [E|E]; split; try discriminate; try (intros _; right; exists r; auto).
    + intros [A|(r' & A & B)]; [discriminate|]. injection A as <-. contradiction.
    + reflexivity.
  - split; auto.
  - split; [discriminate|]. intros [A|(r' & A & B)]; discriminate.
  - split; [discriminate|]. intros [A|(r' & A & B)]; discriminate.
Qed.
(** components *)
Lemma setAll_some v l : forall A, (exists B, setAll v l A = Some B) <-> (forall c k, In (c, k) l -> exists x, get v k = Some x).
Proof.
  induction l as [|[c k] l IH]; intros A; cbn [setAll].
  - split; [intros _ c k []|eauto].
  - destruct (get v k) as [x|] eqn:E.
    + rewrite IH. split; intros H; [intros c' k' [I|I]; [injection I as <- <-; eauto|eauto]|intros c' k' I; apply (H c' k'); now right].
    + split; [intros [B H]; discriminate|]. intros H. destruct (H c k (or_introl eq_refl)) as [x X]. congruence.
Qed.
Lemma setAll_spec v l : forall A B, NoDup (map fst l) -> setAll v l A = Some B ->
  (forall c k x, In (c, k) l -> get v k = Some x -> forall a b, B a b c = pyR x) /\ (forall c, ~ In c (map fst l) -> forall a b, B a b c = A a b c).
Proof.
  induction l as [|[c k] l IH]; intros A B N H; cbn [setAll] in H.
  - injection H as <-. split; [intros c k x []|auto].
  - destruct (get v k) as [x|] eqn:E; [|discriminate]. inversion N as [|? ? Ni N']; subst. destruct (IH _ _ N' H) as [H1 H2]. split.
    + intros c' k' x' [I|I] G a b; [|eapply H1; eauto]. injection I as <- <-. rewrite H2 by exact Ni. unfold setComp. rewrite Z.eqb_refl. congruence.
    + intros c' Nc a b. cbn [map fst In] in Nc. rewrite H2 by tauto. unfold setComp. destruct (Z.eqb_spec c' c); [subst; tauto|reflexivity].
Qed.
(** species *)
Lemma species_fold v sp : forall i A a b l,
  snd (fold_left (fun st s => let '(i, A) := st in ((i + 1)%Z, match get v s with None => A | Some x => setComp A (5 + i)%Z (pyR x) end)) sp (i, A)) a b l =
  match (if (5 + i <=? l)%Z then nth_error sp (Z.to_nat (l - 5 - i)) else None) with
  | Some s => match get v s with Some x => pyR x | None => A a b l end
  | None => A a b l end.
Proof.
  induction sp as [|s sp IH]; intros i A a b l; cbn [fold_left snd].
  - destruct (5 + i <=? l); [|reflexivity]. destruct (Z.to_nat (l - 5 - i)); reflexivity.
  - rewrite IH. destruct (Z.leb_spec (5 + (i + 1)) l) as [L|L]; destruct (Z.leb_spec (5 + i) l) as [L'|L']; try lia.
    + replace (Z.to_nat (l - 5 - i)) with (S (Z.to_nat (l - 5 - (i + 1)))) by lia. cbn [nth_error].
      assert (E : match get v s with Some x => setComp A (5 + i) (pyR x) | None => A end a b l = A a b l).
      { destruct (get v s); [|reflexivity]. unfold setComp. destruct (Z.eqb_spec l (5 + i)); [lia|reflexivity]. }
      destruct (nth_error sp _) as [s'|]; [|exact E]. destruct (get v s'); [reflexivity|exact E].
    + replace (Z.to_nat (l - 5 - i)) with 0%nat by lia. cbn [nth_error]. destruct (get v s); [|reflexivity]. unfold setComp. destruct (Z.eqb_spec l (5 + i)); [reflexivity|lia].
    + destruct (get v s); [|reflexivity]. unfold setComp. destruct (Z.eqb_spec l (5 + i)); [lia|reflexivity].
Qed.
Lemma nth_removelast {A} (l : list A) : forall i x, nth_error (removelast l) i = Some x <-> nth_error l i = Some x /\ (i + 1 < List.length l)%nat.
Proof.
  induction l as [|y l IH]; intros i x; [cbn; destruct i; split; [discriminate|intros [H ?]; discriminate|discriminate|intros [H ?]; discriminate]|].
  destruct l as [|z l].
  - cbn [removelast]. destruct i; cbn; split; try discriminate; intros [? H]; lia.
  - change (removelast (y :: z :: l)) with (y :: removelast (z :: l)). destruct i as [|i]; cbn [nth_error].
    + split; [intros H; split; [exact H|cbn; lia]|tauto].
    + rewrite IH. cbn [List.length]. split; intros [H1 H2]; split; auto; lia.
Qed.
Lemma species_spec v sp A a b l : setSpecies v sp A a b l =
  match (if 5 <=? l then nth_error (removelast sp) (Z.to_nat (l - 5)) else None) with
  | Some s => match get v s with Some x => pyR x | None => A a b l end
  | None => A a b l end.
Proof. unfold setSpecies. rewrite species_fold. replace (5 + 0) with 5 by lia. replace (l - 5 - 0) with (l - 5) by lia. reflexivity. Qed.

(** ** Constants *)
(** what the components of a type are *)
Definition comps (k : bcKind) : list (Z * string) :=
  match k with
  | constantVelocitySubsonicInlet => velo ++ [(4, "T"%string)] | supersonicInlet => (0, "p"%string) :: velo ++ [(4, "T"%string)] | constantMassFluxSubsonicInlet => [(4, "T"%string)]
  | stagnationSubsonicInlet => [(0, "pt"%string); (4, "Tt"%string)] | constantPressureSubsonicExit => [(0, "p"%string)] | adiabaticMovingWall => velo
  | isoTNoSlipWall | isoTSlipWall => [(4, "T"%string)] | isoTMovingWall => velo ++ [(4, "T"%string)] | _ => [] end.
Definition isIn (k : bcKind) : bool := match k with constantVelocitySubsonicInlet | supersonicInlet | constantMassFluxSubsonicInlet | stagnationSubsonicInlet => true | _ => false end.
Lemma isIn_iff k : isIn k = true <-> isInlet k.
Proof. unfold isInlet. destruct k; cbn; split; intros H; try discriminate; try tauto; repeat destruct H as [H|H]; try discriminate; reflexivity. Qed.
Lemma comps_iff k c s : In (c, s) (comps k) <-> In s (needed k) /\ prim s = Some c.
Proof.
  destruct k; cbn [comps needed velo app In];
    (split; [intros H; repeat destruct H as [H|H]; try contradiction; injection H as <- <-; (split; [tauto|reflexivity])
            |intros [H P]; repeat destruct H as [H|H]; try contradiction; subst s; cbn in P; try discriminate; injection P as <-; tauto]).
Qed.
Lemma comps_nodup k : NoDup (map fst (comps k)).
Proof. destruct k; cbn [comps map fst velo app]; repeat (apply NoDup_cons; [cbn [In]; lia|]); apply NoDup_nil. Qed.
Definition theQ (k : bcKind) blk n v : option arr3 := match k with constantMassFluxSubsonicInlet => massQ blk n v | _ => Some zeros end.
Lemma prep_constants files k blk fam n v : isWallInletExit k -> needed k <> [] -> prep files (typeName k) blk fam n v = constants files blk fam n v (comps k) (isIn k) (theQ k blk n v).
Proof. intros (A & B & C) N. destruct k; cbn [needed] in N; try congruence; reflexivity. Qed.
Lemma prep_trivial files k blk fam n v : isWallInletExit k -> needed k = [] -> prep files (typeName k) blk fam n v = inl (mkBA zeros zeros None).
Proof. intros (A & B & C) N. destruct k; cbn [needed] in N; try congruence; reflexivity. Qed.
Lemma massQ_some blk n v : (exists Q, massQ blk n v = Some Q) <-> exists x, get v "mDotPerUnitArea" = Some x.
Proof. unfold massQ. destruct (get v "mDotPerUnitArea"); split; intros [x H]; try discriminate; eauto. Qed.

(** without a profile a boundary is set up exactly when every value it needs is there, and then every cell of the face, edges included, has them; species not named are 0 *)
Theorem C151_constants : forall files k blk fam n v, isWallInletExit k -> ~ asksProfile v ->
  ((exists arr, prep files (typeName k) blk fam n v = inl arr) <-> forall key, In key (needed k) -> exists x, get v key = Some x) /\
  forall arr, prep files (typeName k) blk fam n v = inl arr -> ba_spline arr = None /\ forall a b,
    (forall key l x, In key (needed k) -> prim key = Some l -> get v key = Some x -> ba_q arr a b l = pyR x) /\
    (isInlet k -> forall i s, nth_error (bi_species blk) i = Some s -> (i + 1 < List.length (bi_species blk))%nat ->
       ba_q arr a b (5 + Z.of_nat i) = match get v s with Some x => pyR x | None => 0%R end) /\
    (forall l, ~ suppliedBy k l -> ba_q arr a b l = 0%R) /\
    (k <> constantMassFluxSubsonicInlet -> forall l, ba_Q arr a b l = 0%R).
Proof.
  intros files k blk fam n v W NP. assert (WP : wantsProfile v = false) by (destruct (wantsProfile v) eqn:E; [apply asks_iff in E; contradiction|reflexivity]).
  destruct (list_eq_dec string_dec (needed k) []) as [N|N].
  - rewrite prep_trivial by auto. split; [split; [intros _ key I; rewrite N in I; destruct I|eauto]|]. intros arr H. injection H as <-. cbn [ba_spline ba_q ba_Q]. split; [reflexivity|]. intros a b.
    split; [intros key l x I; rewrite N in I; destruct I|]. split; [|split; reflexivity]. intros I. unfold isInlet in I. exfalso. clear -N I. repeat destruct I as [-> | I]; try discriminate. subst; discriminate.
  - rewrite prep_constants by auto. unfold constants. rewrite WP. split.
    + assert (Q : (exists Q, theQ k blk n v = Some Q) <-> (In "mDotPerUnitArea"%string (needed k) -> exists x, get v "mDotPerUnitArea" = Some x)).
      { destruct k; cbn [theQ needed]; try (split; [intros _ I; cbn [In] in I; repeat destruct I as [I|I]; try discriminate; contradiction|eauto]; fail). rewrite massQ_some. cbn [In]. split; [auto|intros H; apply H; auto]. }
      pose proof (setAll_some v (comps k) zeros) as S. split.
      * intros [arr H]. destruct (theQ k blk n v) as [Q0|] eqn:EQ; [|discriminate]. destruct (setAll v (comps k) zeros) as [q|] eqn:Eq; [|discriminate].
        intros key I. destruct (prim key) as [c|] eqn:P.
        -- apply (proj1 S (ex_intro _ q eq_refl) c key). apply comps_iff. auto.
        -- assert (key = "mDotPerUnitArea"%string) as -> by (destruct k; cbn [needed In] in I; repeat destruct I as [I|I]; try contradiction; subst key; cbn in P; try discriminate; reflexivity).
           apply (proj1 Q); eauto.
      * intros H. destruct (proj2 Q) as [Q0 ->]; [intros I; auto|]. destruct (proj2 S) as [q ->]; [|eauto]. intros c key I. apply comps_iff in I. apply H. tauto.
    + intros arr H. destruct (theQ k blk n v) as [Q0|] eqn:EQ; [|discriminate]. destruct (setAll v (comps k) zeros) as [q|] eqn:Eq; [|discriminate]. injection H as <-. cbn [ba_spline ba_q ba_Q].
      destruct (setAll_spec _ _ _ _ (comps_nodup k) Eq) as [H1 H2]. split; [reflexivity|]. intros a b.
      assert (Lt : forall key l, prim key = Some l -> l < 5) by (intros key l; unfold prim; repeat destruct (String.eqb _ _); intros E; try discriminate; injection E as <-; lia).
      split; [|split; [|split]].
      * intros key l x I P G. assert (E : q a b l = pyR x) by (apply (H1 l key); [apply comps_iff; auto|exact G]). destruct (isIn k); [|exact E]. rewrite species_spec.
        destruct (Z.leb_spec 5 l); [specialize (Lt _ _ P); lia|exact E].
      * intros I i s Ns Li. apply isIn_iff in I. rewrite I. rewrite species_spec. destruct (Z.leb_spec 5 (5 + Z.of_nat i)); [|lia]. replace (Z.to_nat (5 + Z.of_nat i - 5)) with i by lia.
        replace (nth_error (removelast (bi_species blk)) i) with (Some s) by (symmetry; apply nth_removelast; auto).
        destruct (get v s); [reflexivity|]. rewrite H2; [reflexivity|]. intros J. apply in_map_iff in J. destruct J as ((c & key) & E & J). cbn [fst] in E. apply comps_iff in J. destruct J as [_ P]. apply Lt in P. lia.
      * intros l Nl. assert (E : q a b l = 0%R).
        { rewrite H2; [reflexivity|]. intros J. apply in_map_iff in J. destruct J as ((c & key) & E & J). cbn [fst] in E. subst c. apply comps_iff in J. apply Nl. left. eauto. }
        destruct (isIn k) eqn:I; [|exact E]. rewrite species_spec. destruct (Z.leb_spec 5 l); [|exact E]. exfalso. apply Nl. right. split; [apply isIn_iff; exact I|lia].
      * intros Nk l. destruct k; cbn [theQ] in EQ; try congruence; injection EQ as <-; reflexivity.
Qed.

(** ** Profiles *)
Lemma ext_cells d ng n : isBface n -> sliceExt d ng n = (fst (faceCells d n) + 2 * ng, snd (faceCells d n) + 2 * ng).
Proof. intros H. assert (C : n = 1 \/ n = 2 \/ n = 3 \/ n = 4 \/ n = 5 \/ n = 6) by (unfold isBface in H; lia). repeat destruct C as [-> | C]; try subst n; unfold sliceExt, faceCells; cbn [Z.eqb Pos.eqb orb Z.leb Z.compare Pos.compare Pos.compare_cont fst snd]; f_equal; lia. Qed.
Definition clamp (ng len x : Z) : Z := if x <? ng then ng else if ng + len <=? x then ng + len - 1 else x.
Lemma nearest_clamp ng len x c : nearest ng len x c -> c = clamp ng len x.
Proof.
  intros [R H]. unfold clamp. destruct (Z.ltb_spec x ng); [specialize (H ng ltac:(lia)); lia|]. destruct (Z.leb_spec (ng + len) x); [specialize (H (ng + len - 1) ltac:(lia)); lia|specialize (H x ltac:(lia)); lia].
Qed.
Lemma clamp_nearest ng len x : 0 < len -> nearest ng len x (clamp ng len x).
Proof. intros L. unfold clamp, nearest. destruct (Z.ltb_spec x ng); [split; [lia|intros; lia]|]. destruct (Z.leb_spec (ng + len) x); split; try lia; intros; lia. Qed.
Ltac cmpZ := repeat match goal with
  | |- context [(?x <? ?y)] => destruct (Z.ltb_spec x y)
  | |- context [(?x <=? ?y)] => destruct (Z.leb_spec x y) end; cbn [andb]; try lia; try reflexivity.
Lemma np3 n a b l a' b' : a = a' -> b = b' -> np_val n [a; b; l] = np_val n [a'; b'; l].
Proof. intros -> ->. reflexivity. Qed.
Lemma fill_spec l0 l1 ng (A : arr3) n a b l : 0 < ng -> 0 < l0 -> 0 < l1 -> 0 <= a < l0 + 2 * ng -> 0 <= b < l1 + 2 * ng ->
  fillEdges (l0 + 2 * ng) (l1 + 2 * ng) ng (setInner (l0 + 2 * ng) (l1 + 2 * ng) ng A n) a b l = np_val n [clamp ng l0 a - ng; clamp ng l1 b - ng; l].
Proof.
  intros G L0 L1 Ha Hb.
  assert (I : forall x y, ng <= x < ng + l0 -> ng <= y < ng + l1 -> setInner (l0 + 2 * ng) (l1 + 2 * ng) ng A n x y l = np_val n [x - ng; y - ng; l]).
  { intros x y Hx Hy. unfold setInner. cmpZ. }
  unfold fillEdges. cbv zeta. unfold clamp.
  destruct (Z.ltb_spec b ng); destruct (Z.leb_spec (ng + l1) b); try lia; (destruct (Z.ltb_spec a ng); destruct (Z.leb_spec (ng + l0) a); try lia); cmpZ;
    (rewrite I by lia; apply np3; lia).
Qed.
Lemma shapeIs_iff a s : shapeIs a s = true <-> np_shape a = s.
Proof. unfold shapeIs. destruct (list_eq_dec Z.eq_dec (np_shape a) s); split; congruence. Qed.
(** with a profile, the file of the face must hold two arrays of the face's shape; interior cells get their values, every other cell of the face those of the nearest interior cell *)
Theorem C151_profile : forall files k blk fam n v, isWallInletExit k -> needed k <> [] -> asksProfile v -> isBface n -> 0 < bi_ng blk ->
  let len := faceCells (bi_d blk) n in 0 < fst len -> 0 < snd len ->
  ((exists arr, prep files (typeName k) blk fam n v = inl arr) <-> exists nq nQ rest, files (profileName fam (bi_num blk) (Z.to_N n)) = Some (nq :: nQ :: rest) /\ profileShape blk n nq /\ profileShape blk n nQ) /\
  forall arr nq nQ rest, prep files (typeName k) blk fam n v = inl arr -> files (profileName fam (bi_num blk) (Z.to_N n)) = Some (nq :: nQ :: rest) ->
    ba_spline arr = None /\ forall a b a' b' l, onBface (bi_d blk) (bi_ng blk) n a b -> nearest (bi_ng blk) (fst len) a a' -> nearest (bi_ng blk) (snd len) b b' ->
    ba_q arr a b l = np_val nq [a' - bi_ng blk; b' - bi_ng blk; l] /\ ba_Q arr a b l = np_val nQ [a' - bi_ng blk; b' - bi_ng blk; l].
Proof.
  intros files k blk fam n v W N P Hn G len L0 L1. apply asks_iff in P. rewrite prep_constants by auto. unfold constants. rewrite P. unfold fromProfile. rewrite ext_cells by exact Hn. fold len.
  set (l0 := fst len) in *. set (l1 := snd len) in *. set (ng := bi_ng blk) in *.
  replace (l0 + 2 * ng - 2 * ng) with l0 by lia. replace (l1 + 2 * ng - 2 * ng) with l1 by lia.
  assert (SH : forall x, shapeIs x [l0; l1; bi_ne blk] = true <-> profileShape blk n x) by (intros x; rewrite shapeIs_iff; reflexivity).
  destruct (files (profileName fam (bi_num blk) (Z.to_N n))) as [fl|] eqn:F.
  2:{ split; [split; [intros [arr H]; discriminate|intros (x & y & z & H & _); discriminate]|]. intros arr nq nQ rest H; discriminate. }
  destruct fl as [|nq [|nQ rest]]; try (split; [split; [intros [arr H]; discriminate|intros (x & y & z & H & _); discriminate]|intros arr x y z H; discriminate]).
  destruct (shapeIs nq [l0; l1; bi_ne blk] && shapeIs nQ [l0; l1; bi_ne blk])%bool eqn:S.
  - apply andb_prop in S. destruct S as [S1 S2]. split.
    + split; [intros _; exists nq, nQ, rest; split; [reflexivity|split; apply SH; auto]|eauto].
    + intros arr nq' nQ' rest' H E. injection E as <- <- <-. injection H as <-. cbn [ba_spline ba_q ba_Q]. split; [reflexivity|].
      intros a b a' b' l O Na Nb. apply nearest_clamp in Na. apply nearest_clamp in Nb. subst a' b'. apply ext_onBface in O; [|exact Hn]. fold ng in O. rewrite ext_cells in O by exact Hn. fold len l0 l1 in O.
      split; apply fill_spec; lia.
  - split; [|intros arr x y z H; discriminate]. split; [intros [arr H]; discriminate|]. intros (x & y & z & E & S1 & S2). injection E as <- <- <-. apply SH in S1. apply SH in S2. rewrite S1, S2 in S. discriminate.
Qed.

(** ** Cubic splines *)
Definition edge1 (e0 e1 ng g : Z) (F : Z -> Z -> R) : Z -> Z -> R :=
  let F1 := fun a b => if a =? g then F ng b else F a b in let F2 := fun a b => if a =? e0 - g - 1 then F1 (e0 - ng - 1) b else F1 a b in
  let F3 := fun a b => if b =? g then F2 a ng else F2 a b in fun a b => if b =? e1 - g - 1 then F3 a (e1 - ng - 1) else F3 a b.
Lemma edgeAlphas_same e0 e1 ng g m A p q a b c : edgeAlphas e0 e1 ng g m A p q a b c = if c =? m then edge1 e0 e1 ng g (fun a b => A p q a b c) a b else A p q a b c.
Proof. unfold edgeAlphas, edge1. cbv zeta. destruct (c =? m); cbn [andb]; reflexivity. Qed.
Lemma edge3 e0 e1 ng g A p q a b c : 0 <= c < 3 -> fold_left (fun A m => edgeAlphas e0 e1 ng g m A) (zrange 0 3) A p q a b c = edge1 e0 e1 ng g (fun a b => A p q a b c) a b.
Proof.
  intros C. change (zrange 0 3) with [0; 1; 2]. cbn [fold_left].
  assert (c = 0 \/ c = 1 \/ c = 2) as [-> | [-> | ->]] by lia; rewrite !edgeAlphas_same; cbn [Z.eqb Pos.eqb]; unfold edge1; cbv zeta; rewrite ?edgeAlphas_same; cbn [Z.eqb Pos.eqb]; rewrite ?edgeAlphas_same; reflexivity.
Qed.
(** after the passes for layers 0 .. g-1, the cells outside the layers still to do are right *)
Definition partly (l0 l1 ng g : Z) (I F : Z -> Z -> R) : Prop := forall a b,
  (0 <= a < g \/ l0 + 2 * ng - g <= a < l0 + 2 * ng \/ ng <= a < ng + l0) -> (0 <= b < g \/ l1 + 2 * ng - g <= b < l1 + 2 * ng \/ ng <= b < ng + l1) -> F a b = I (clamp ng l0 a) (clamp ng l1 b).
Lemma partly_step l0 l1 ng g I F : 0 <= g < ng -> 0 < l0 -> 0 < l1 -> partly l0 l1 ng g I F -> partly l0 l1 ng (g + 1) I (edge1 (l0 + 2 * ng) (l1 + 2 * ng) ng g F).
Proof.
  intros G L0 L1 P a b Ha Hb. unfold edge1. cbv zeta.
  assert (Ca : clamp ng l0 ng = ng) by (unfold clamp; cmpZ). assert (Cb : clamp ng l1 ng = ng) by (unfold clamp; cmpZ).
  assert (Da : clamp ng l0 (l0 + 2 * ng - ng - 1) = l0 + ng - 1) by (unfold clamp; cmpZ). assert (Db : clamp ng l1 (l1 + 2 * ng - ng - 1) = l1 + ng - 1) by (unfold clamp; cmpZ).
  assert (Row : forall y, (0 <= y < g \/ l1 + 2 * ng - g <= y < l1 + 2 * ng \/ ng <= y < ng + l1) ->
    (if a =? l0 + 2 * ng - g - 1 then (if l0 + 2 * ng - ng - 1 =? g then F ng y else F (l0 + 2 * ng - ng - 1) y) else if a =? g then F ng y else F a y) = I (clamp ng l0 a) (clamp ng l1 y)).
  { intros y Hy. destruct (Z.eqb_spec a (l0 + 2 * ng - g - 1)) as [E|E].
    - destruct (Z.eqb_spec (l0 + 2 * ng - ng - 1) g); [lia|]. rewrite P by lia. rewrite Da. f_equal. unfold clamp. cmpZ.
    - destruct (Z.eqb_spec a g) as [E'|E']; [rewrite P by lia; rewrite Ca; f_equal; unfold clamp; cmpZ|]. apply P; lia. }
  destruct (Z.eqb_spec b (l1 + 2 * ng - g - 1)) as [E|E].
  - destruct (Z.eqb_spec (l1 + 2 * ng - ng - 1) g); [lia|]. rewrite Row by lia. f_equal. rewrite Db. unfold clamp. cmpZ.
  - destruct (Z.eqb_spec b g) as [E'|E']; [rewrite Row by lia; f_equal; rewrite Cb; unfold clamp; cmpZ|]. apply Row; lia.
Qed.
Lemma fillAlphas_spec l0 l1 ng A p q c a b : 0 < ng -> 0 < l0 -> 0 < l1 -> 0 <= c < 3 -> 0 <= a < l0 + 2 * ng -> 0 <= b < l1 + 2 * ng ->
  fillAlphas (l0 + 2 * ng) (l1 + 2 * ng) ng A p q a b c = A p q (clamp ng l0 a) (clamp ng l1 b) c.
Proof.
  intros G L0 L1 C Ha Hb. unfold fillAlphas.
  assert (S : forall m, 0 <= m <= ng -> partly l0 l1 ng m (fun a b => A p q a b c) (fun a b => fold_left (fun A g => fold_left (fun A m => edgeAlphas (l0 + 2 * ng) (l1 + 2 * ng) ng g m A) (zrange 0 3) A) (zrange 0 m) A p q a b c)).
  { intros m Hm. assert (exists j, m = Z.of_nat j) as [j ->] by (exists (Z.to_nat m); lia). induction j as [|j IH].
    - cbn [Z.of_nat]. change (zrange 0 0) with (@nil Z). cbn [fold_left]. intros x y Hx Hy. assert (ng <= x < ng + l0) by lia. assert (ng <= y < ng + l1) by lia. unfold clamp. cmpZ.
    - rewrite Nat2Z.inj_succ in *. unfold Z.succ. rewrite (zrange_snoc 0 (Z.of_nat j + 1)) by lia. replace (Z.of_nat j + 1 - 1) with (Z.of_nat j) by lia.
      pose proof (partly_step l0 l1 ng (Z.of_nat j) _ _ ltac:(lia) L0 L1 (IH ltac:(lia))) as Q. intros x y Hx Hy. rewrite fold_left_app. cbn [fold_left]. rewrite edge3 by exact C. apply (Q x y Hx Hy). }
  apply (S ng ltac:(lia)); lia.
Qed.
Theorem C151_spline : forall files blk fam n v, isBface n -> 0 < bi_ng blk -> let len := faceCells (bi_d blk) n in 0 < fst len -> 0 < snd len ->
  forall T dt au av aw rest N, get v "T" = Some T -> get v "intervalDt" = Some dt -> files (alphasName fam (bi_num blk) (Z.to_N n)) = Some (au :: av :: aw :: rest) ->
  (forall x, x = au \/ x = av \/ x = aw -> np_shape x = [4; N; fst len; snd len]) ->
  exists arr coef, prep files "cubicSplineSubsonicInlet" blk fam n v = inl arr /\ ba_spline arr = Some (coef, N, pyR dt) /\ forall a b, onBface (bi_d blk) (bi_ng blk) n a b ->
    ba_q arr a b 4 = pyR T /\
    (forall i s, nth_error (bi_species blk) i = Some s -> (i + 1 < List.length (bi_species blk))%nat -> ba_q arr a b (5 + Z.of_nat i) = match get v s with Some x => pyR x | None => 0%R end) /\
    forall a' b' p m, nearest (bi_ng blk) (fst len) a a' -> nearest (bi_ng blk) (snd len) b b' ->
      coef p m a b 0 = np_val au [p; m; a' - bi_ng blk; b' - bi_ng blk] /\ coef p m a b 1 = np_val av [p; m; a' - bi_ng blk; b' - bi_ng blk] /\ coef p m a b 2 = np_val aw [p; m; a' - bi_ng blk; b' - bi_ng blk].
Proof.
  intros files blk fam n v Hn G len L0 L1 T dt au av aw rest N ET Edt F SH. unfold prep. cbn [String.eqb Ascii.eqb Bool.eqb]. unfold prepSpline. rewrite ext_cells by exact Hn. fold len.
  set (l0 := fst len) in *. set (l1 := snd len) in *. set (ng := bi_ng blk) in *. rewrite ET, Edt, F.
  replace (l0 + 2 * ng - 2 * ng) with l0 by lia. replace (l1 + 2 * ng - 2 * ng) with l1 by lia. cbv zeta.
  assert (EN : nth 1 (np_shape au) 0 = N) by (rewrite SH by auto; reflexivity). rewrite EN.
  assert (SS : forall x, x = au \/ x = av \/ x = aw -> shapeIs x [4; N; l0; l1] = true) by (intros x Hx; apply shapeIs_iff; apply SH; exact Hx).
  rewrite (SS au), (SS av), (SS aw) by auto. cbn [andb]. eexists. eexists. split; [reflexivity|]. cbn [ba_spline ba_q]. split; [reflexivity|]. intros a b O.
  apply ext_onBface in O; [|exact Hn]. fold ng in O. rewrite ext_cells in O by exact Hn. fold len l0 l1 in O. split; [|split].
  - rewrite species_spec. reflexivity.
  - intros i s Ns Li. rewrite species_spec. destruct (Z.leb_spec 5 (5 + Z.of_nat i)); [|lia]. replace (Z.to_nat (5 + Z.of_nat i - 5)) with i by lia.
    replace (nth_error (removelast (bi_species blk)) i) with (Some s) by (symmetry; apply nth_removelast; auto). destruct (get v s); [reflexivity|]. unfold setComp. destruct (Z.eqb_spec (5 + Z.of_nat i) 4); [lia|reflexivity].
  - intros a' b' p m Na Nb. assert (Ra := proj1 Na). assert (Rb := proj1 Nb). apply nearest_clamp in Na. apply nearest_clamp in Nb. subst a' b'.
    rewrite !fillAlphas_spec by lia. unfold innerAlphas. cbn [Z.eqb Pos.eqb]. destruct (Z.leb_spec ng (clamp ng l0 a)); [|lia]. destruct (Z.ltb_spec (clamp ng l0 a) (l0 + 2 * ng - ng)); [|lia].
    destruct (Z.leb_spec ng (clamp ng l1 b)); [|lia]. destruct (Z.ltb_spec (clamp ng l1 b) (l1 + 2 * ng - ng)); [|lia]. cbn [andb]. auto.
Qed.

(** ** Mass-flux inlets: from the number in the file to the flow through the face *)
Theorem C151_mass_flux : forall files blk fam n v arr mDot, prep files (typeName constantMassFluxSubsonicInlet) blk fam n v = inl arr -> ~ asksProfile v -> get v "mDotPerUnitArea" = Some mDot ->
  isBface n -> (bi_ng blk = 1 \/ bi_ng blk = 2) -> (2 <= ni (bi_d blk) /\ 2 <= nj (bi_d blk) /\ 2 <= nk (bi_d blk)) ->
  forall eos ne fd cells cells', keepsPrimitives ne eos -> 5 <= ne -> f_qBc fd = ba_q arr -> f_QBc fd = ba_Q arr ->
  bcEuler constantMassFluxSubsonicInlet eos (bi_d blk) (bi_ng blk) ne n fd (bi_nI blk) (bi_nJ blk) (bi_nK blk) cells = Some cells' ->
  forall a b, onBface (bi_d blk) (bi_ng blk) n a b -> let N := bfaceNormal (bi_d blk) (bi_ng blk) n (bi_nI blk) (bi_nJ blk) (bi_nK blk) a b in unitv N ->
  let h := cellOf cells' (layerCell (bi_d blk) (bi_ng blk) n 0 a b) in let c := cellOf cells (layerCell (bi_d blk) (bi_ng blk) n 1 a b) in
  (0 < c_rho h + c_rho c ->
  (c_rho h + c_rho c) / 2 * (inwards n * dotv (meanv (velocity h) (velocity c)) N) = pyR mDot)%R.
Proof.
  intros files blk fam n v arr mDot P NP G Hn Hg D eos ne fd cells cells' He Hne Eq EQ B a b O N U h c R.
  assert (WP : wantsProfile v = false) by (destruct (wantsProfile v) eqn:E; [apply asks_iff in E; contradiction|reflexivity]).
  rewrite prep_constants in P; [|repeat split; discriminate|discriminate]. unfold constants in P. rewrite WP in P. cbn [theQ] in P. unfold massQ in P. rewrite G in P.
  destruct (setAll v _ _) as [q|]; [|discriminate]. injection P as <-. cbn [ba_Q ba_q] in *.
  apply (C53_prescribed_inflow eos (bi_d blk) (bi_ng blk) ne n fd (bi_nI blk) (bi_nJ blk) (bi_nK blk) Hn Hg D cells cells' (pyR mDot)); auto.
  intros. now rewrite EQ.
Qed.

(** ** Nothing is read that was not set *)
Lemma setCq_ext f g c : (forall l, f l = g l) -> setCq f c = setCq g c.
Proof. intros H. assert (f = g) as -> by (apply functional_extensionality; exact H). reflexivity. Qed.
Lemma wall_ext isoT ne N bv bv' q1 q0 l : (isoT = true -> bv 4 = bv' 4) -> wallEuler isoT ne N bv q1 q0 l = wallEuler isoT ne N bv' q1 q0 l.
Proof. intros H. unfold wallEuler. destruct (mirrorU N q1) as [[u v] w]. unfold withVel. destruct isoT; [rewrite H by reflexivity; reflexivity|]. rewrite andb_false_r. reflexivity. Qed.
Lemma eulerCell_ext k ne plus fd fd' N bv bv' c1 c2 c0 : f_up fd = f_up fd' -> f_down fd = f_down fd' -> (forall l, suppliedBy k l -> bv l = bv' l) ->
  eulerCell k ne plus fd N bv c1 c2 c0 = eulerCell k ne plus fd' N bv' c1 c2 c0.
Proof.
  intros Up Dn H.
  assert (S : forall key l, In key (needed k) -> prim key = Some l -> bv l = bv' l) by (intros key l I P; apply H; left; eauto).
  assert (Sp : isInlet k -> forall l, 5 <= l -> bv l = bv' l) by (intros I l L; apply H; right; auto).
  destruct k; cbn [eulerCell]; try reflexivity; try (rewrite Up; reflexivity); try (rewrite Dn; reflexivity).
  all: try (apply setCq_ext; intros l; apply wall_ext; intros Y; try discriminate Y; apply (S "T"%string); cbn; auto; fail).
  - apply setCq_ext; intros l. destruct ((0 <=? l) && (l <? ne))%bool eqn:B; [|reflexivity]. destruct (Z.eqb_spec l 0); [reflexivity|]. apply andb_prop in B. destruct B as [B _]. apply Z.leb_le in B.
    assert (l = 1 \/ l = 2 \/ l = 3 \/ l = 4 \/ 5 <= l) as [-> | [-> | [-> | [-> | L]]]] by lia; [apply (S "u"%string)|apply (S "v"%string)|apply (S "w"%string)|apply (S "T"%string)|apply Sp; unfold isInlet; auto]; cbn; auto.
  - apply setCq_ext; intros l. destruct ((0 <=? l) && (l <? ne))%bool eqn:B; [|reflexivity]. apply andb_prop in B. destruct B as [B _]. apply Z.leb_le in B.
    assert (l = 0 \/ l = 1 \/ l = 2 \/ l = 3 \/ l = 4 \/ 5 <= l) as [-> | [-> | [-> | [-> | [-> | L]]]]] by lia; [apply (S "p"%string)|apply (S "u"%string)|apply (S "v"%string)|apply (S "w"%string)|apply (S "T"%string)|apply Sp; unfold isInlet; auto]; cbn; auto 8.
  - apply setCq_ext; intros l. destruct ((0 <=? l) && (l <? ne))%bool eqn:B; [|reflexivity]. apply andb_prop in B. destruct B as [B _]. apply Z.leb_le in B. unfold withVel.
    destruct (Z.eqb_spec l 1); [reflexivity|]. destruct (Z.eqb_spec l 2); [reflexivity|]. destruct (Z.eqb_spec l 3); [reflexivity|]. destruct (Z.eqb_spec l 0); [reflexivity|].
    assert (l = 4 \/ 5 <= l) as [-> | L] by lia; [apply (S "T"%string); cbn; auto|apply Sp; unfold isInlet; auto].
  - destruct (stagnation N c1) as [[gamma Vb] Mb]. apply setCq_ext; intros l. destruct ((0 <=? l) && (l <? ne))%bool eqn:B; [|reflexivity]. apply andb_prop in B. destruct B as [B _]. apply Z.leb_le in B. unfold withVel.
    destruct (Z.eqb_spec l 1); [reflexivity|]. destruct (Z.eqb_spec l 2); [reflexivity|]. destruct (Z.eqb_spec l 3); [reflexivity|].
    destruct (Z.eqb_spec l 0); [rewrite (S "pt"%string 0) by (cbn; auto); reflexivity|]. destruct (Z.eqb_spec l 4); [rewrite (S "Tt"%string 4) by (cbn; auto); reflexivity|]. apply Sp; [unfold isInlet; auto|lia].
  - destruct (exitVel N plus (cq c1) (cq c2)) as [[u v] w]. apply setCq_ext; intros l. unfold withVel. rewrite (S "p"%string 0) by (cbn; auto). reflexivity.
Qed.
Lemma preCell_ext k bv bv' c1 c0 : (forall l, suppliedBy k l -> bv l = bv' l) -> preCell k bv c1 c0 = preCell k bv' c1 c0.
Proof.
  intros H. assert (S : forall key l, In key (needed k) -> prim key = Some l -> bv l = bv' l) by (intros key l I P; apply H; left; eauto).
  destruct k; cbn [preCell]; try reflexivity; rewrite (S "u"%string 1), (S "v"%string 2), (S "w"%string 3) by (cbn; auto); reflexivity.
Qed.
Lemma layers_ext ng plus h s f g blk : (forall h s b, f h s b = g h s b) -> layers ng plus h s f blk = layers ng plus h s g blk.
Proof. intros H. assert (f = g) as -> by (apply functional_extensionality; intros a; apply functional_extensionality; intros b; apply functional_extensionality; intros c; apply H). reflexivity. Qed.
Lemma forSlice_ext d ng n s f g blk : (forall a b c, f a b c = g a b c) -> forSlice d ng n s f blk = forSlice d ng n s g blk.
Proof. intros H. assert (f = g) as -> by (apply functional_extensionality; intros a; apply functional_extensionality; intros b; apply functional_extensionality; intros c; apply H). reflexivity. Qed.
(** a boundary condition depends on the components that its values supply and, at a mass-flux inlet, on the momentum targets; on nothing else of the face's arrays *)
Theorem C151_reads_what_is_set : forall k eos d ng ne n fd fd' nI nJ nK blk G, f_up fd = f_up fd' -> f_down fd = f_down fd' ->
  (forall a b l, suppliedBy k l -> f_qBc fd a b l = f_qBc fd' a b l) -> (k = constantMassFluxSubsonicInlet -> forall a b l, 1 <= l <= 3 -> f_QBc fd a b l = f_QBc fd' a b l) ->
  bcEuler k eos d ng ne n fd nI nJ nK blk = bcEuler k eos d ng ne n fd' nI nJ nK blk /\ bcPre k d ng n fd blk = bcPre k d ng n fd' blk /\ bcPost k d ng ne n fd G = bcPost k d ng ne n fd' G.
Proof.
  intros k eos d ng ne n fd fd' nI nJ nK blk G Up Dn H HQ. split; [|split].
  - unfold bcEuler. destruct (getFaceSliceIdxs d ng n) as [[[[h s1] bf] plus]|]; [|reflexivity].
    rewrite (layers_ext ng plus h (s1 + plus) _ (fun h s2 blk => forSlice d ng n h (fun a b c0 => eulerCell k ne plus fd' (slice (loopNormal k nI nJ nK n) n bf a b) (f_qBc fd' a b) (slice blk n s1 a b) (slice blk n s2 a b) c0) blk)).
    2:{ intros h0 s0 b0. apply forSlice_ext. intros a b c. apply eulerCell_ext; auto. }
    destruct (layers _ _ _ _ _ _) as [[blk1 h1] s21]. destruct k; try reflexivity.
    rewrite (layers_ext _ _ _ _ _ (fun h s2 blk => forSlice d ng n h (fun a b c0 => massCell (f_QBc fd' a b) (slice blk n s2 a b) c0) blk)); [reflexivity|].
    intros h0 s0 b0. apply forSlice_ext. intros a b c. unfold massCell. rewrite !(HQ eq_refl a b 1), !(HQ eq_refl a b 2), !(HQ eq_refl a b 3) by lia. reflexivity.
  - unfold bcPre. destruct k; try reflexivity; (destruct (getFaceSliceIdxs d ng n) as [[[[h s1] bf] plus]|]; [|reflexivity]; do 3 f_equal; apply layers_ext; intros h0 s0 b0; apply forSlice_ext; intros a b c; apply preCell_ext; auto).
  - unfold bcPost. assert (P : forall l g1 g0, postVal k fd l g1 g0 = postVal k fd' l g1 g0) by (intros; unfold postVal; rewrite Up, Dn; reflexivity).
    destruct k; try reflexivity; (destruct (getFaceSliceIdxs d ng n) as [[[[h s1] bf] plus]|]; [|reflexivity]; f_equal; apply functional_extensionality; intros i; apply functional_extensionality; intros j; apply functional_extensionality; intros kk; apply functional_extensionality; intros l;
      destruct (faceCoord n i j kk) as [[s' a] b]; destruct (sliceExt d ng n) as [e0 e1]; rewrite P; reflexivity).
Qed.

(** ** Files *)
Lemma snoc_split {A} (u : A) : forall x x' d d', (forall c, In c d -> c <> u) -> (forall c, In c d' -> c <> u) -> x ++ u :: d = x' ++ u :: d' -> x = x' /\ d = d'.
Proof.
  induction x as [|a x IH]; intros x' d d' Hd Hd' E.
  - destruct x' as [|a' x']; [cbn [app] in E; injection E as E; auto|]. cbn [app] in E. injection E as E1 E2. exfalso. apply (Hd u); [rewrite E2; apply in_or_app; right; now left|reflexivity].
  - destruct x' as [|a' x']; cbn [app] in E; injection E as E1 E2.
    + exfalso. apply (Hd' u); [rewrite <- E2; apply in_or_app; right; now left|reflexivity].
    + destruct (IH x' d d' Hd Hd' E2). subst. auto.
Qed.
Lemma dec_no_underscore n c : In c (dec n) -> c <> "_"%char.
Proof. intros I E. subst c. apply printN_digits in I. unfold isDigit in I. cbn in I. lia. Qed.
Lemma t_inj a b : t a = t b -> a = b.
Proof. unfold t. intros H. rewrite <- (string_of_list_ascii_of_string a), <- (string_of_list_ascii_of_string b), H. reflexivity. Qed.
Lemma names_core x x' a a' b b' : x ++ t "_" ++ dec a ++ t "_" ++ dec b ++ t ".npy" = x' ++ t "_" ++ dec a' ++ t "_" ++ dec b' ++ t ".npy" -> x = x' /\ a = a' /\ b = b'.
Proof.
  intros E. rewrite !app_assoc in E. apply app_inv_tail in E. rewrite <- !app_assoc in E.
  assert (K : forall y p q, y ++ t "_" ++ dec p ++ t "_" ++ dec q = (y ++ "_"%char :: dec p) ++ "_"%char :: dec q) by (intros; rewrite <- app_assoc; reflexivity).
  rewrite !K in E. destruct (snoc_split _ _ _ _ _ (dec_no_underscore b) (dec_no_underscore b') E) as [E1 E2]. destruct (snoc_split _ _ _ _ _ (dec_no_underscore a) (dec_no_underscore a') E1) as [E3 E4].
  apply printN_inj in E2. apply printN_inj in E4. auto.
Qed.
(** every face of every family has a profile file, and a coefficient file, of its own *)
Theorem C151_own_file : forall fam fam' blk blk' n n', profileName fam blk n = profileName fam' blk' n' \/ alphasName fam blk n = alphasName fam' blk' n' -> fam = fam' /\ blk = blk' /\ n = n'.
Proof.
  intros fam fam' blk blk' n n' [E|E].
  - unfold profileName in E. apply app_inv_head in E. apply names_core in E. destruct E as (E & -> & ->). apply t_inj in E. auto.
  - unfold alphasName in E. apply app_inv_head in E. change (t "Alphas/alphas_") with (t "Alphas/alphas" ++ t "_") in E.
    rewrite <- !app_assoc in E. rewrite (app_assoc (t fam)), (app_assoc (t fam')) in E. apply names_core in E. destruct E as (E & -> & ->). apply app_inv_tail in E. apply t_inj in E. auto.
Qed.

(** ** Through the reader: the arrays of a solver face are those of the values filed under its family *)
Lemma forall2_nth {A C} (P : A -> C -> Prop) l l' : Forall2 P l l' -> forall i x, nth_error l i = Some x -> exists y, nth_error l' i = Some y /\ P x y.
Proof. induction 1 as [|x y l l' H F IH]; intros i z E; [destruct i; discriminate|]. destruct i as [|i]; [injection E as <-; exists y; auto|]. apply IH. exact E. Qed.
Theorem C151_read : forall files spanOf axisOf file mb mb', readBcs valueDict bcArr blkInfo spanOf axisOf (prep files) (Some file) false mb = Ok mb' ->
  forall i j blk fs f fam e v k, nth_error mb i = Some (blk, fs) -> nth_error fs j = Some f -> bf_fam bcArr f = Some fam -> look valueDict file fam = Some e -> e_vals valueDict e = Some v ->
  bf_kind bcArr f = SolverFace -> bf_type bcArr f = typeName k -> isWallInletExit k ->
  e_type valueDict e = Some (typeName k) /\
  exists fs' f' arr, nth_error mb' i = Some (blk, fs') /\ nth_error fs' j = Some f' /\ bf_vals bcArr f' = Some arr /\ prep files (typeName k) blk fam (bf_num bcArr f) v = inl arr.
Proof.
  intros files spanOf axisOf file mb mb' H i j blk fs f fam e v k Ei Ej Ef Ee Ev Kf Tf W. apply C82_faces_by_family in H.
  destruct (forall2_nth _ _ _ H _ _ Ei) as ([blk' fs'] & Ei' & E1 & F). cbn [fst snd] in *. subst blk'. destruct (forall2_nth _ _ _ F _ _ Ej) as (f' & Ej' & A).
  unfold applied in A. rewrite Ef in A. destruct A as (e' & ty & Ee' & Et & Fit & A). assert (e' = e) by congruence. subst e'. rewrite Ev in A.
  assert (NP : ~ periodicType (bf_type bcArr f)).
  { rewrite Tf. intros [r E]. destruct W as (W1 & W2 & W3). destruct k; try congruence; discriminate. }
  split.
  { rewrite Et. f_equal. destruct Fit as [Fit|[[r1 F1] [r2 F2]]]; [congruence|]. exfalso. apply NP. exists (r1 ++ r2)%string. rewrite F2, F1. clear. induction "periodic"%string as [|c p IH]; [reflexivity|]. cbn [append]. f_equal. exact IH. }
  destruct A as [[P _]|[_ [[[N|N] _]|(_ & _ & _ & arr & P & ->)]]]; [contradiction|discriminate|contradiction|]. exists fs', (setVals bcArr f arr), arr. rewrite Tf in P. auto.
Qed.

(** a composition under a name that is no species of the block is neither used nor reported *)
Theorem C151_unknown_species_refuted : forall files k blk fam n v key x, isInlet k -> ~ asksProfile v -> (forall s, In s (removelast (bi_species blk)) -> s <> key) -> ~ In key (needed k) -> key <> "profile"%string ->
  prep files (typeName k) blk fam n ((key, x) :: v) = prep files (typeName k) blk fam n v.
Proof.
  intros files k blk fam n v key x I NP Ns Nn Npr.
  assert (W : isWallInletExit k /\ needed k <> []) by (unfold isWallInletExit; destruct I as [-> | [-> | [-> | ->]]]; repeat split; discriminate). destruct W as [W Nd].
  rewrite !prep_constants by auto. unfold constants.
  assert (G : forall k', k' <> key -> get ((key, x) :: v) k' = get v k') by (intros k' H; cbn [get]; destruct (String.eqb_spec k' key); [contradiction|reflexivity]).
  assert (WP : wantsProfile ((key, x) :: v) = wantsProfile v) by (unfold wantsProfile; rewrite G by congruence; reflexivity). rewrite WP.
  destruct (wantsProfile v); [reflexivity|].
  assert (TQ : theQ k blk n ((key, x) :: v) = theQ k blk n v).
  { destruct k; try reflexivity. cbn [theQ]. unfold massQ. rewrite G; [reflexivity|]. intros E. apply Nn. rewrite <- E. cbn. auto. }
  rewrite TQ. destruct (theQ k blk n v) as [Q0|]; [|reflexivity].
  assert (SA : forall l A, (forall c s, In (c, s) l -> s <> key) -> setAll ((key, x) :: v) l A = setAll v l A).
  { induction l as [|[c s] l IH]; intros A H; [reflexivity|]. cbn [setAll]. rewrite G by (apply (H c); now left). destruct (get v s); [|reflexivity]. apply IH. intros c' s' J. apply (H c'). now right. }
  rewrite SA by (intros c s J E; subst s; apply comps_iff in J; tauto). destruct (setAll v (comps k) zeros) as [q|]; [|reflexivity]. do 2 f_equal. destruct (isIn k); [|reflexivity].
  apply functional_extensionality; intros a; apply functional_extensionality; intros b; apply functional_extensionality; intros l. rewrite !species_spec.
  destruct (5 <=? l); [|reflexivity]. destruct (nth_error (removelast (bi_species blk)) (Z.to_nat (l - 5))) as [s|] eqn:E; [|reflexivity]. rewrite G; [reflexivity|]. apply Ns. eapply nth_error_In; eauto.
Qed.

(** a 3x2x2-cell block with two halo layers: an inlet with constants, one with a profile whose file is there, a mass-flux inlet with unit normals *)
Definition exBI : blkInfo := mkBI 7 (mkDims 4 3 3) 2 ["O2"; "N2"]%string (fun _ _ _ => (1, 0, 0)%R) (fun _ _ _ => (0, 1, 0)%R) (fun _ _ _ => (0, 0, 1)%R).
Definition exVals : valueDict := [("u", PNum 10); ("v", PNum 0); ("w", PNum 0); ("T", PNum 300); ("O2", PNum (1/4))]%string.
Definition exProfile : npArr := mkNp [2; 2; 6] (fun i => match i with [a; b; l] => IZR (a + 10 * b + 100 * l) | _ => 0%R end).
Definition exFiles : disk := fun f => if text_dec f (t "./Input/profiles/inflow_7_2.npy") then Some [exProfile; exProfile] else None.
Example C151_nonvacuous : ~ asksProfile exVals /\
  (exists arr, prep exFiles (typeName constantVelocitySubsonicInlet) exBI "inflow" 2 exVals = inl arr /\ ba_q arr 0 5 1 = 10%R /\ ba_q arr 0 5 5 = (1/4)%R) /\
  asksProfile [("profile"%string, PTrue)] /\
  (exists arr, prep exFiles (typeName supersonicInlet) exBI "inflow" 2 [("profile"%string, PTrue)] = inl arr /\ ba_q arr 0 5 3 = np_val exProfile [0; 1; 3] /\ ba_q arr 2 3 3 = np_val exProfile [0; 1; 3]) /\
  (exists arr, prep exFiles (typeName constantMassFluxSubsonicInlet) exBI "inflow" 2 [("mDotPerUnitArea", PNum 5); ("T", PNum 300)]%string = inl arr) /\ unitv (bfaceNormal (bi_d exBI) 2 2 (bi_nI exBI) (bi_nJ exBI) (bi_nK exBI) 2 2).
Proof.
  assert (NP : ~ asksProfile exVals) by (intros [H|(r & H & _)]; discriminate). assert (W : forall k, isInlet k -> isWallInletExit k) by (intros k [-> | [-> | [-> | ->]]]; repeat split; discriminate).
  assert (F : exFiles (profileName "inflow" 7 (Z.to_N 2)) = Some [exProfile; exProfile]) by (unfold exFiles; destruct (text_dec _ _) as [|Nf]; [reflexivity|exfalso; apply Nf; reflexivity]).
  split; [exact NP|]. split; [|split; [left; reflexivity|split]].
  - destruct (C151_constants exFiles constantVelocitySubsonicInlet exBI "inflow" 2 exVals (W _ (or_introl eq_refl)) NP) as [[_ E] V].
    destruct E as [arr A]; [intros key I; cbn [needed In] in I; repeat destruct I as [I|I]; try contradiction; subst key; eexists; reflexivity|]. exists arr. split; [exact A|]. destruct (V arr A) as [_ V']. destruct (V' 0 5) as (V1 & V2 & _).
    split; [apply (V1 "u"%string 1 (PNum 10)); [cbn; auto|reflexivity|reflexivity]|]. apply (V2 (or_introl eq_refl) 0%nat "O2"%string); [reflexivity|cbn; lia].
  - destruct (C151_profile exFiles supersonicInlet exBI "inflow" 2 [("profile"%string, PTrue)] (W _ (or_intror (or_introl eq_refl))) ltac:(discriminate) (or_introl eq_refl) ltac:(unfold isBface; lia) ltac:(cbn; lia) ltac:(cbn; lia) ltac:(cbn; lia)) as [[_ E] V].
    destruct E as [arr A]; [exists exProfile, exProfile, []; split; [exact F|split; reflexivity]|]. exists arr. split; [exact A|]. destruct (V arr _ _ _ A F) as [_ V']. cbv zeta in V'.
    split; [apply (V' 0 5 2 3 3)|apply (V' 2 3 2 3 3)]; try (cbn; lia); unfold nearest; cbn [bi_ng bi_d exBI faceCells Z.leb Z.compare Pos.compare Pos.compare_cont fst snd nj nk]; split; try lia; intros; lia.
  - split; [|unfold unitv, dotv; cbn; lra]. assert (NP' : ~ asksProfile [("mDotPerUnitArea", PNum 5); ("T", PNum 300)]%string) by (intros [H|(r & H & _)]; discriminate).
    apply (C151_constants exFiles constantMassFluxSubsonicInlet exBI "inflow" 2 _ (W _ (or_intror (or_intror (or_introl eq_refl)))) NP').
    intros key I. cbn [needed In] in I. repeat destruct I as [I|I]; try contradiction; subst key; eexists; reflexivity.
Qed.

Print Assumptions C151_constants.
Print Assumptions C151_profile.
Print Assumptions C151_spline.
Print Assumptions C151_mass_flux.
Print Assumptions C151_reads_what_is_set.
Print Assumptions C151_own_file.
Print Assumptions C151_read.
Print Assumptions C151_unknown_species_refuted.
