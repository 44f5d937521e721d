(** C82: boundary-condition files are matched to faces by family and type. *)
From Coq Require Import Reals ZArith List Bool String Lra Lia.
From Verif Require Import M_Topology M_Grid M_Metrics M_Bc M_ReadBcs S_ReadBcs.
Import ListNotations.

Lemma prefix_iff p : forall s, String.prefix p s = true <-> startsWith p s.
Proof.
  induction p as [|a p IH]; intros s; [split; [intros _; exists s; reflexivity | destruct s; reflexivity]|].
  destruct s as [|b s]; [split; [discriminate | intros [r H]; discriminate]|].
  change (String.prefix (String a p) (String b s)) with (if Ascii.ascii_dec a b then String.prefix p s else false). destruct (Ascii.ascii_dec a b) as [<- | N].
  - split; [intros H; apply IH in H; destruct H as [r H]; exists r; cbn [append]; congruence | intros [r H]; apply IH; exists r; cbn [append] in H; congruence].
  - split; [discriminate | intros [r H]; cbn [append] in H; congruence].
Qed.
Lemma inList_iff s l : inList s l = true <-> In s l.
Proof. unfold inList. rewrite existsb_exists. split; [intros (x & Hx & E); apply String.eqb_eq in E; congruence | intros H; exists s; split; [exact H | apply String.eqb_refl]]. Qed.

Section P.
Context {V B Blk : Type} (spanOf : V -> option R) (axisOf : V -> option vec) (prep : string -> Blk -> string -> Z -> V -> B + bool).
Notation readBcs := (readBcs V B Blk spanOf axisOf prep).
Notation readFace := (readFace V B Blk spanOf axisOf prep).
Notation bface := (bface B).

(** what reading does to one face: nothing without a family (allowed for four types only); otherwise the entry of the family must exist and fit; then periodic faces get span and axis,
    solver faces of other types the arrays computed from the values, everything else and entries without values nothing *)
Definition periodicDone (f f' : bface) (s : R) (a : vec) : Prop :=
  norm a <> 0%R /\ f' = mkBF B (bf_num B f) (bf_kind B f) (bf_fam B f) (bf_type B f) (Some s) (Some (vx a / norm a, vy a / norm a, vz a / norm a)%R)
    (if (negb (kindEqb (bf_kind B f) TopologyFace) && String.prefix "periodicRot" (bf_type B f))%bool then Some (rotMatrix a (s * PI / 180), rotMatrix a (- (s * PI / 180))) else bf_rot B f) (bf_vals B f).
Definition hasPrep (ty : string) : Prop := In ty valueTypes.
Lemma hasPrep_modules ty : hasPrep ty <-> In ty (prepInlets ++ prepExits ++ prepWalls).
Proof. unfold hasPrep, valueTypes, prepInlets, prepExits, prepWalls. cbn [app In]. tauto. Qed.
Definition applied (file : bcFile V) (justPeriodic : bool) (blk : Blk) (f f' : bface) : Prop :=
  match bf_fam B f with
  | None => needsNothing (bf_type B f) /\ f' = f
  | Some fam => exists e ty, look V file fam = Some e /\ e_type V e = Some ty /\ fits ty (bf_type B f) /\
      match e_vals V e with
      | None => f' = f
      | Some v => (periodicType (bf_type B f) /\ exists s a, spanOf v = Some s /\ axisOf v = Some a /\ periodicDone f f' s a) \/
                  (~ periodicType (bf_type B f) /\
                     ((justPeriodic = true \/ bf_kind B f <> SolverFace) /\ f' = f \/
                      justPeriodic = false /\ bf_kind B f = SolverFace /\ hasPrep (bf_type B f) /\ exists b, prep (bf_type B f) blk fam (bf_num B f) v = inl b /\ f' = setVals B f b))
      end
  end.
Lemma needs_iff ty : inList ty noInput = true <-> needsNothing ty.
Proof. rewrite inList_iff. unfold noInput, needsNothing. cbn [In]. split; intros H; repeat destruct H as [H | H]; subst; tauto. Qed.
Lemma fits_iff ty fty : (negb (String.eqb ty fty) && negb (String.prefix "periodic" ty && String.prefix ty fty))%bool = false <-> fits ty fty.
Proof.
  unfold fits. rewrite andb_false_iff, !negb_false_iff, String.eqb_eq, andb_true_iff, !prefix_iff. tauto.
Qed.
Lemma tryPrep_iff ty blk fam num v b : tryPrep V B Blk prep [prepInlets; prepExits; prepWalls] ty blk fam num v = Ok b <-> hasPrep ty /\ prep ty blk fam num v = inl b.
Proof.
  rewrite hasPrep_modules. cbn [tryPrep]. rewrite !in_app_iff, <- !inList_iff.
  destruct (inList ty prepInlets); destruct (inList ty prepExits); destruct (inList ty prepWalls); destruct (prep ty blk fam num v) as [x|[]];
    (split; [intros H; split; [tauto | congruence] || discriminate | intros [H1 H2]; try discriminate; try (destruct H1 as [H1|[H1|H1]]; discriminate); congruence]).
Qed.
Lemma setAxis_iff f s a f' : setAxis B (setSpan B f s) a = Ok f' <-> periodicDone f f' s a.
Proof.
  unfold setAxis, periodicDone, setSpan, periodicMatrices. cbn [bf_num bf_kind bf_fam bf_type bf_span bf_axis bf_rot bf_vals]. destruct (Req_EM_T (norm a) 0) as [Z | NZ]; [split; [discriminate | tauto]|].
  cbv zeta. destruct (negb (kindEqb (bf_kind B f) TopologyFace) && String.prefix "periodicRot" (bf_type B f))%bool; (split; [intros H; split; [exact NZ | congruence] | intros [_ ->]; reflexivity]).
Qed.
Lemma kind_iff f : negb (kindEqb (bf_kind B f) SolverFace) = true <-> bf_kind B f <> SolverFace.
Proof. destruct (bf_kind B f); cbn; split; congruence. Qed.
Lemma readFace_iff file jp blk f f' : readFace file jp blk f = Ok f' <-> applied file jp blk f f'.
Proof.
  unfold M_ReadBcs.readFace, applied. destruct (bf_fam B f) as [fam|].
  - destruct (look V file fam) as [e|]; [|split; [discriminate | intros (e & ty & H & _); discriminate]].
    destruct (e_type V e) as [ty|] eqn:Et; [|split; [discriminate | intros (e' & ty & H & H2 & _); congruence]].
    assert (W : forall P : entry V -> string -> Prop, (exists e' ty', Some e = Some e' /\ e_type V e' = Some ty' /\ P e' ty') <-> P e ty).
    { intros P. split; [intros (e' & ty' & H & H2 & H3); assert (e' = e) as -> by congruence; assert (ty' = ty) as -> by congruence; exact H3 | intros H; exists e, ty; now repeat split]. }
    rewrite (W (fun e ty => fits ty (bf_type B f) /\ _)). clear W.
    destruct (_ && _)%bool eqn:Ef.
    + split; [discriminate|]. intros [H _]. apply fits_iff in H. congruence.
    + assert (F : fits ty (bf_type B f)) by (apply fits_iff; exact Ef). clear Ef.
      destruct (e_vals V e) as [v|]; [|split; [intros H; split; [exact F | congruence] | intros [_ ->]; reflexivity]].
      destruct (String.prefix "periodic" (bf_type B f)) eqn:Ep.
      * assert (P : periodicType (bf_type B f)) by (apply prefix_iff; exact Ep). destruct (spanOf v) as [s|]; [destruct (axisOf v) as [a|]|].
        -- rewrite setAxis_iff. split; [intros H; split; [exact F | left; split; [exact P | exists s, a; exact (conj eq_refl (conj eq_refl H))]]|]. intros [_ [(_ & s' & a' & Hs & Ha & H) | [N _]]]; [congruence | contradiction].
        -- split; [discriminate|]. intros [_ [(_ & s' & a' & Hs & Ha & H) | [N _]]]; [discriminate | contradiction].
        -- split; [discriminate|]. intros [_ [(_ & s' & a' & Hs & Ha & H) | [N _]]]; [discriminate | contradiction].
      * assert (P : ~ periodicType (bf_type B f)) by (intros Q; apply prefix_iff in Q; congruence). destruct jp.
        -- split; [intros H; split; [exact F | right; split; [exact P | left; split; [now left | congruence]]]|]. intros [_ [[N _] | [_ [[_ ->] | [N _]]]]]; [contradiction | reflexivity | discriminate].
        -- destruct (negb (kindEqb (bf_kind B f) SolverFace)) eqn:Ek.
           ++ apply kind_iff in Ek. split; [intros H; split; [exact F | right; split; [exact P | left; split; [now right | congruence]]]|]. intros [_ [[N _] | [_ [[_ ->] | (_ & N & _)]]]]; [contradiction | reflexivity | contradiction].
           ++ assert (K : bf_kind B f = SolverFace) by (destruct (bf_kind B f); [discriminate | discriminate | reflexivity]).
              destruct (tryPrep V B Blk prep _ _ _ _ _ _) as [b|x] eqn:Et2.
              ** apply tryPrep_iff in Et2. destruct Et2 as [Hp Eb]. split; [intros H; split; [exact F | right; split; [exact P | right; repeat split; [exact K | exact Hp | exists b; split; [exact Eb | congruence]]]]|].
                 intros [_ [[N _] | [_ [[[N | N] _] | (_ & _ & _ & b' & Eb' & ->)]]]]; [contradiction | discriminate | contradiction | congruence].
              ** split; [discriminate|]. intros [_ [[N _] | [_ [[[N | N] _] | (_ & _ & Hp & b' & Eb' & ->)]]]]; [contradiction | discriminate | contradiction|].
                 assert (Y := proj2 (tryPrep_iff _ _ _ _ _ _) (conj Hp Eb')). congruence.
  - destruct (inList (bf_type B f) noInput) eqn:E; [apply needs_iff in E; split; [intros H; split; [exact E | congruence] | intros [_ ->]; reflexivity]|].
    split; [discriminate | intros [H _]; apply needs_iff in H; congruence].
Qed.
Lemma mapR_iff {A C} (g : A -> res C) l : forall r, mapR g l = Ok r <-> Forall2 (fun x y => g x = Ok y) l r.
Proof.
  induction l as [|x l IH]; intros r; cbn [mapR]; [split; [intros H; assert (r = []) as -> by congruence; constructor | intros H; inversion H; reflexivity]|].
  destruct (g x) as [y|e] eqn:E; [|split; [discriminate | intros H; inversion H; subst; congruence]]. destruct (mapR g l) as [ys|e] eqn:El.
  - split; [intros H; assert (r = y :: ys) as -> by congruence; constructor; [exact E | now apply IH] | intros H; inversion H as [|? y' ? ys' Hy Hr]; subst; apply IH in Hr; congruence].
  - split; [discriminate | intros H; inversion H as [|? y' ? ys' Hy Hr]; subst; apply IH in Hr; congruence].
Qed.
Lemma Forall2_impl' {A C} (P Q : A -> C -> Prop) : (forall x y, P x y -> Q x y) -> forall l r, Forall2 P l r -> Forall2 Q l r.
Proof. intros H l r F. induction F; constructor; auto. Qed.
(** C82: reading succeeds exactly when every face can be treated this way, and does it to each *)
Theorem C82_faces_by_family : forall file jp mb mb', readBcs (Some file) jp mb = Ok mb' <->
  Forall2 (fun b b' => fst b' = fst b /\ Forall2 (applied file jp (fst b)) (snd b) (snd b')) mb mb'.
Proof.
  intros file jp mb mb'. unfold M_ReadBcs.readBcs. rewrite mapR_iff.
  assert (X : forall b b' : Blk * list bface, (let '(blk, fs) := b in match mapR (readFace file jp blk) fs with Raise e => Raise e | Ok fs' => Ok (blk, fs') end) = Ok b' <-> fst b' = fst b /\ Forall2 (applied file jp (fst b)) (snd b) (snd b')).
  { intros [blk fs] [blk' fs']. cbn [fst snd]. assert (Y : Forall2 (applied file jp blk) fs fs' <-> mapR (readFace file jp blk) fs = Ok fs').
    { rewrite mapR_iff. split; intros H; (eapply Forall2_impl'; [|exact H]; intros; now apply readFace_iff). }
    rewrite Y. destruct (mapR (readFace file jp blk) fs) as [o|e]; (split; [intros H; split; congruence || discriminate | intros [H1 H2]; congruence]). }
  split; intros H; (eapply Forall2_impl'; [|exact H]; intros a b Hab; apply X; exact Hab).
Qed.
(** C82: in particular any face whose family is not in the file or whose type disagrees with it, and any face without a family that needs one, stops the reading *)
Theorem C82_disagreement_raises : forall file jp mb blk fs f, In (blk, fs) mb -> In f fs ->
  (exists fam, bf_fam B f = Some fam /\ (look V file fam = None \/ exists e, look V file fam = Some e /\ (e_type V e = None \/ exists ty, e_type V e = Some ty /\ ~ fits ty (bf_type B f)))) \/
  (bf_fam B f = None /\ ~ needsNothing (bf_type B f)) ->
  exists x, readBcs (Some file) jp mb = Raise x.
Proof.
  intros file jp mb blk fs f Hb Hf Bad. destruct (readBcs (Some file) jp mb) as [mb'|x] eqn:E; [exfalso | now exists x]. apply C82_faces_by_family in E.
  apply In_nth_error in Hb. destruct Hb as [n Hn].
  assert (G : forall {A C} (P : A -> C -> Prop) l l', Forall2 P l l' -> forall x, In x l -> exists y, P x y) by (clear; induction 1 as [|x y l l' H F IH]; intros z Hz; [destruct Hz | destruct Hz as [<- | Hz]; [now exists y | now apply IH]]).
  destruct (G _ _ _ _ _ E (blk, fs) (nth_error_In _ _ Hn)) as ([blk' fs'] & _ & Ff). cbn [fst snd] in Ff. destruct (G _ _ _ _ _ Ff f Hf) as (f' & Hap). unfold applied in Hap.
  destruct Bad as [(fam & Efam & Bad) | [Efam Bad]]; rewrite Efam in Hap.
  - destruct Hap as (e & ty & He & Et & Hfit & _). destruct Bad as [Bad | (e' & He' & [Bad | (ty' & Et' & Bad)])]; [congruence | congruence |]. assert (e' = e) as -> by congruence. assert (ty' = ty) as -> by congruence. contradiction.
  - now destruct Hap.
Qed.
(** C82: reading the periodic families first, working on the blocks in between (unifying the grid, computing metrics), and then reading everything is the same as reading everything after that work *)
Theorem C82_two_passes : forall file mb m1 (work : Blk -> Blk), readBcs (Some file) true mb = Ok m1 ->
  readBcs (Some file) false (map (fun b => (work (fst b), snd b)) m1) = readBcs (Some file) false (map (fun b => (work (fst b), snd b)) mb).
Proof.
  intros file mb m1 work H. apply C82_faces_by_family in H. unfold M_ReadBcs.readBcs. induction H as [|[blk fs] [blk' fs'] mb m1 [E F] H IH]; [reflexivity|]. cbn [fst snd] in *. subst blk'. cbn [map mapR fst snd].
  assert (X : mapR (readFace file false (work blk)) fs' = mapR (readFace file false (work blk)) fs).
  { clear IH H. induction F as [|f f' fs fs' A F IHf]; [reflexivity|]. cbn [mapR]. rewrite IHf.
    assert (Y : readFace file false (work blk) f' = readFace file false (work blk) f); [|now rewrite Y].
    unfold applied in A. destruct (bf_fam B f) as [fam|] eqn:Ef; [|destruct A as [_ ->]; reflexivity]. destruct A as (e & ty & He & Et & Hfit & A). destruct (e_vals V e) as [v|] eqn:Ev; [|now subst f'].
    destruct A as [(P & s & a & Hs & Ha & D) | [_ [[_ ->] | (C & _)]]]; [|reflexivity | discriminate].
    destruct D as [Nz ->]. unfold M_ReadBcs.readFace. cbn [bf_num bf_kind bf_fam bf_type bf_span bf_axis bf_rot bf_vals]. rewrite Ef, He, Et, Ev, Hs, Ha. destruct (_ && _)%bool; [reflexivity|].
    apply prefix_iff in P. rewrite P. unfold setAxis, setSpan. cbn [bf_num bf_kind bf_fam bf_type bf_span bf_axis bf_rot bf_vals]. destruct (Req_EM_T (norm a) 0); [reflexivity|]. cbv zeta. unfold periodicMatrices.
    destruct (negb (kindEqb (bf_kind B f) TopologyFace) && String.prefix "periodicRot" (bf_type B f))%bool; cbn [bf_num bf_kind bf_fam bf_type bf_span bf_axis bf_rot bf_vals]; try rewrite Ef; reflexivity. }
  rewrite X. destruct (mapR (readFace file false (work blk)) fs); [|reflexivity]. rewrite IH. reflexivity.
Qed.
(** C82: the boundary function of a face is the compiled function of the same name; interior and translational-periodic faces have none; no valid type is left without *)
Theorem C82_function_of_type : forall ty, In ty validBcTypes ->
  (ty = "b0" \/ startsWith "periodicTrans" ty)%string /\ setBcFunc ty = Ok NullFunc \/ exists m, setBcFunc ty = Ok (Bound m ty) /\ groupOf ty m.
Proof.
  intros ty H. unfold validBcTypes in H. cbn [In] in H. unfold groupOf.
  repeat (destruct H as [<- | H]; [first [left; split; [first [left; reflexivity | right; eexists; reflexivity] | reflexivity]
    | right; eexists; split; [reflexivity | ]; first
        [ left; split; [match goal with |- endsWith ?p ?t => exists (String.substring 0 (String.length t - String.length p) t); reflexivity end | reflexivity]
        | right; left; split; [match goal with |- endsWith ?p ?t => exists (String.substring 0 (String.length t - String.length p) t); reflexivity end | reflexivity]
        | right; right; left; split; [match goal with |- endsWith ?p ?t => exists (String.substring 0 (String.length t - String.length p) t); reflexivity end | reflexivity]
        | right; right; right; split; [eexists; reflexivity | reflexivity] ] ] | ]).
  destruct H.
Qed.
End P.

(** C82 refuted: reading does not make sure that a face whose type needs values has them.  Without a file nothing is checked; with a file, a family without bcVals only prints a warning. *)
Definition exWall : bface R := mkBF R 1 SolverFace (Some "hot"%string) "isoTNoSlipWall" None None None None.
Theorem C82_values_guaranteed_refuted :
  (exists mb : list (unit * list (bface R)), readBcs R R unit Some (fun _ => None) (fun _ _ _ _ v => inl v) None false mb = Ok mb /\ exists f, In (tt, [f]) mb /\ ~ needsNothing (bf_type R f) /\ bf_vals R f = None) /\
  (exists (mb : list (unit * list (bface R))) file, readBcs R R unit Some (fun _ => None) (fun _ _ _ _ v => inl v) (Some file) false mb = Ok mb /\ exists f, In (tt, [f]) mb /\ ~ needsNothing (bf_type R f) /\ bf_vals R f = None).
Proof.
  assert (N : ~ needsNothing "isoTNoSlipWall") by (intros H; repeat destruct H as [H | H]; discriminate).
  split; [exists [(tt, [exWall])] | exists [(tt, [exWall])], [("hot"%string, mkEntry R (Some "isoTNoSlipWall"%string) None)]]; (split; [reflexivity | exists exWall; split; [now left | split; [exact N | reflexivity]]]).
Qed.
(** a file and a block that are read: a rotational periodic pair and an isothermal wall *)
Example C82_example : exists mb', readBcs R R unit (fun v => Some v) (fun _ => Some (0, 0, 1)%R) (fun _ _ _ _ v => inl v)
   (Some [("per"%string, mkEntry R (Some "periodicRot"%string) (Some 30%R)); ("hot"%string, mkEntry R (Some "isoTNoSlipWall"%string) (Some 300%R))]) false
   [(tt, [mkBF R 1 SolverFace (Some "per"%string) "periodicRotLow" None None None None; mkBF R 2 SolverFace (Some "per"%string) "periodicRotHigh" None None None None; exWall; mkBF R 4 SolverFace None "b0" None None None None])] = Ok mb'.
Proof.
  unfold M_ReadBcs.readBcs. cbn [mapR]. unfold readFace. cbn [bf_fam bf_type bf_kind bf_num look String.eqb Ascii.eqb Bool.eqb e_type e_vals String.prefix negb andb kindEqb].
  unfold setAxis. assert (E : norm (0, 0, 1)%R = 1%R). { unfold norm, dot, vx, vy, vz. cbn [fst snd]. replace (0 * 0 + 0 * 0 + 1 * 1)%R with 1%R by ring. apply sqrt_1. }
  rewrite E. destruct (Req_EM_T 1 0) as [X|X]; [lra|]. vm_compute String.prefix. vm_compute String.eqb. cbn. eexists. reflexivity.
Qed.
Print Assumptions C82_faces_by_family. Print Assumptions C82_disagreement_raises. Print Assumptions C82_two_passes. Print Assumptions C82_function_of_type. Print Assumptions C82_values_guaranteed_refuted.
