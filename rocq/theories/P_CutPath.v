(** Property C77: propagation of a cut.  Vocabulary: S_Cut.  Model: M_Cut. *)
From Coq Require Import ZArith String Ascii List Bool Lia Reals.
From Verif Require Import M_Topology S_Topology L_Topology P_Topology M_Cut S_Cut L_Cut L_Cut2 P_Cut.
Import ListNotations.
Open Scope Z_scope.

Definition enc (x : cutState) : cutItem := let '(A, a, r) := x in (A, letter a, r).
Definition blockOf (x : cutState) : Z := fst (fst x).

Lemma enc_block x : fst (fst (enc x)) = blockOf x.
Proof. destruct x as [[A a] r]. reflexivity. Qed.

Definition latF (a : axis) : list Z :=
  match a with I => [3;4;5;6] | J => [1;2;5;6] | K => [1;2;3;4] end.
Lemma lateral_letter a : lateral (letter a) = Some (latF a).
Proof. destruct a; reflexivity. Qed.
Lemma latF_spec a k : In k (latF a) <-> exists s, fst s <> a /\ k = faceNo s.
Proof.
  split.
  - intros H. destruct a; cbn in H; destruct H as [<-|[<-|[<-|[<-|[]]]]];
    [exists (J,false)|exists (J,true)|exists (K,false)|exists (K,true)
    |exists (I,false)|exists (I,true)|exists (K,false)|exists (K,true)
    |exists (I,false)|exists (I,true)|exists (J,false)|exists (J,true)]; split; cbn; congruence || reflexivity.
  - intros ([x y] & N & ->). destruct a, x, y; cbn in *; intuition congruence.
Qed.

Lemma seen_spec nb xs : existsb (fun it : Z * string * bool => fst (fst it) =? nb) (map enc xs) = true <-> In nb (map blockOf xs).
Proof.
  rewrite existsb_exists. split.
  - intros (it & I & E). apply in_map_iff in I as (x & <- & I). rewrite enc_block in E. apply Z.eqb_eq in E. subst nb.
    now apply in_map.
  - intros I. apply in_map_iff in I as (x & <- & I). exists (enc x). split; [now apply in_map|]. rewrite enc_block. lia.
Qed.

Lemma nodup_map_in {X Y} (f : X -> Y) (l : list X) : NoDup l ->
  (forall x y, In x l -> In y l -> f x = f y -> x = y) -> NoDup (map f l).
Proof.
  induction 1 as [|h t Hh Ht IH]; intros Inj; cbn; constructor.
  - intros Q. apply in_map_iff in Q as (y & E & Hy). apply Hh.
    rewrite (Inj h y); [exact Hy|now left|now right|now symmetry].
  - apply IH. intros x y Hx Hy. apply Inj; now right.
Qed.

Section Path.
Variable mb : list gblock.
Hypothesis W : wfGrid mb.
Hypothesis C : closed mb.

Lemma visit_ok A b a r xs k : blk mb A b -> In k (latF a) ->
  exists ys, visit b (letter a) r (map enc xs) k = Some (map enc ys) /\
    (forall y, In y ys -> crosses mb (A, a, r) y /\ ~ In (blockOf y) (map blockOf xs)) /\
    NoDup (map blockOf ys) /\
    (forall g B, fac mb A k g -> neighbor (topo g) = Some B -> In B (map blockOf (xs ++ ys))).
Proof.
  intros Hb Hk. apply latF_spec in Hk as (s & Ns & ->). pose proof (faceNo_range s) as Kr.
  destruct (faceOf_ex b (faceNo s) Kr (wf_len _ _ _ W Hb)) as [g Eg].
  assert (Fg : fac mb A (faceNo s) g) by (apply fac_faceOf; eauto).
  assert (U : forall g', fac mb A (faceNo s) g' -> g' = g).
  { intros g' H. apply fac_faceOf in H as (b' & Hb' & Eg'). rewrite (blk_fun _ _ _ _ Hb' Hb) in Eg'. congruence. }
  unfold visit. rewrite Eg. destruct (neighbor (topo g)) as [B|] eqn:EB.
  2:{ exists []. split; [reflexivity|]. split; [easy|]. split; [constructor|]. intros g' B H E. rewrite (U _ H) in E. congruence. }
  destruct (existsb _ _) eqn:X.
  - exists []. split; [reflexivity|]. split; [easy|]. split; [constructor|]. intros g' B' H E. rewrite (U _ H), EB in E.
    injection E as <-. rewrite app_nil_r. now apply seen_spec.
  - assert (X' : ~ In B (map blockOf xs)) by (intros Q; apply seen_spec in Q; discriminate (eq_trans (eq_sym X) Q)).
    destruct (C A (faceNo s) g B Fg EB) as [_ (o & Lo & Eo)]. rewrite Eo.
    exists [(B, fst (o a), if snd (o a) then r else negb r)].
    split; [|split; [|split]].
    + destruct a; cbn [letter axisMap String.eqb Ascii.eqb Bool.eqb]; unfold show; cbn [String.get axisMap];
      [destruct (o I) as [[] []]|destruct (o J) as [[] []]|destruct (o K) as [[] []]]; reflexivity.
    + intros y [<-|[]]. split; [|exact X']. exists s, g, o. auto 8.
    + cbn. constructor; [easy|constructor].
    + intros g' B' H E. rewrite (U _ H), EB in E. injection E as <-. rewrite map_app. apply in_or_app. right. now left.
Qed.

Lemma visits_ok A b a r : blk mb A b -> forall ks xs zs, (forall k, In k ks -> In k (latF a)) -> NoDup (map blockOf xs) ->
  exists ys, visits b (letter a) r ks (map enc xs) (map enc zs) = Some (map enc (xs ++ ys), map enc (zs ++ ys)) /\
    (forall y, In y ys -> crosses mb (A, a, r) y) /\
    NoDup (map blockOf (xs ++ ys)) /\
    (forall k g B, In k ks -> fac mb A k g -> neighbor (topo g) = Some B -> In B (map blockOf (xs ++ ys))).
Proof.
  intros Hb. induction ks as [|k ks IH]; intros xs zs Hk ND.
  - exists []. cbn [visits]. rewrite !app_nil_r. repeat split; try easy.
  - cbn [visits]. destruct (visit_ok A b a r xs k Hb (Hk k (or_introl eq_refl))) as (ys & E & Cr & Ny & Fy).
    rewrite E. rewrite <- !map_app. 
    destruct (IH (xs ++ ys) (zs ++ ys)) as (us & Eu & Cu & Nu & Fu).
    + intros j Hj. apply Hk. now right.
    + rewrite map_app. 
      assert (G : forall l l' : list Z, NoDup l -> NoDup l' -> (forall x, In x l' -> ~ In x l) -> NoDup (l ++ l')).
      { induction l as [|h t IHl]; intros l' N1 N2 D; [exact N2|]. inversion N1; subst. cbn. constructor.
        - intros Q. apply in_app_or in Q as [Q|Q]; [contradiction|]. apply (D h Q). now left.
        - apply IHl; auto. intros x Hx Q. apply (D x Hx). now right. }
      apply G; auto. intros x Hx. apply in_map_iff in Hx as (y & <- & Hy). now apply Cr.
    + exists (ys ++ us). rewrite !app_assoc. split; [exact Eu|]. split; [|split; [exact Nu|]].
      * intros y Hy. apply in_app_or in Hy as [Hy|Hy]; [now apply Cr|now apply Cu].
      * intros j g B [<-|Hj] Fg EB; [|eapply Fu; eauto].
        rewrite map_app. apply in_or_app. left. eapply Fy; eauto.
Qed.

Lemma nodup_range (l : list Z) N : NoDup l -> (forall x, In x l -> 0 <= x < Z.of_nat N) -> (length l <= N)%nat.
Proof.
  intros ND R. rewrite <- (seq_length N 0), <- (map_length Z.to_nat).
  apply NoDup_incl_length.
  - apply nodup_map_in; auto. intros x y Hx Hy E. apply R in Hx. apply R in Hy. lia.
  - intros k Hk. apply in_map_iff in Hk as (x & <- & Hx). apply in_seq. apply R in Hx. lia.
Qed.

Lemma crosses_range x y : crosses mb x y -> exists b, blk mb (blockOf y) b.
Proof.
  destruct x as [[A a] r], y as [[B a'] r']. intros (s & g & o & _ & F & E & _).
  destruct (C _ _ _ _ F E) as [H _]. exact H.
Qed.

Lemma loop_ok x0 : (exists b, blk mb (blockOf x0) b) -> forall fuel done check,
  (length mb <= fuel + length done)%nat ->
  NoDup (map blockOf (done ++ check)) ->
  (forall x, In x (done ++ check) -> reached mb x0 x) ->
  (forall x y, In x done -> crosses mb x y -> In (blockOf y) (map blockOf (done ++ check))) ->
  In x0 (done ++ check) ->
  exists l, pathLoop fuel mb (map enc (done ++ check)) (map enc check) = Some (Some (map enc (done ++ check ++ l))) /\
    NoDup (map blockOf (done ++ check ++ l)) /\
    (forall x, In x (done ++ check ++ l) -> reached mb x0 x) /\
    (forall x y, In x (done ++ check ++ l) -> crosses mb x y -> In (blockOf y) (map blockOf (done ++ check ++ l))).
Proof.
  intros H0. 
  assert (RR : forall x, reached mb x0 x -> exists b, blk mb (blockOf x) b).
  { intros x R. inversion R; subst; [exact H0|]. eapply crosses_range; eauto. }
  induction fuel as [|fuel IH]; intros done check HF ND HR HC HI0.
  - assert (check = []).
    { destruct check as [|x check]; [reflexivity|exfalso].
      assert (length (map blockOf (done ++ x :: check)) <= length mb)%nat.
      { apply nodup_range; auto. intros z Hz. apply in_map_iff in Hz as (y & <- & Hy).
        destruct (RR _ (HR _ Hy)) as [b Hb]. now apply blk_lt in Hb. }
      rewrite map_length, app_length in H. cbn in H. lia. }
    subst check. exists []. cbn. rewrite app_nil_r in *. repeat split; auto.
  - destruct check as [|x check].
    + exists []. cbn. rewrite app_nil_r in *. repeat split; auto.
    + destruct x as [[A a] r].
      change (map enc ((A, a, r) :: check)) with ((A, letter a, r) :: map enc check). cbn [pathLoop].
      assert (HRx : reached mb x0 (A, a, r)) by (apply HR; apply in_or_app; right; now left).
      destruct (RR _ HRx) as [b Hb]. cbn [blockOf fst] in Hb.
      rewrite (getBlk_blk _ _ _ W Hb), lateral_letter.
      destruct (visits_ok A b a r Hb (latF a) (done ++ (A, a, r) :: check) ((A, a, r) :: check) (fun k Hk => Hk) ND)
        as (ys & E & Cr & Ny & Fy).
      match goal with |- context [visits ?u1 ?u2 ?u3 ?u4 ?u5 ?u6] =>
        change (visits u1 u2 u3 u4 u5 u6) with
          (visits b (letter a) r (latF a) (map enc (done ++ (A, a, r) :: check)) (map enc ((A, a, r) :: check))) end.
      rewrite E.
      destruct (IH (done ++ [(A, a, r)]) (check ++ ys)) as (l & El & Nl & Rl & Cl).
      * rewrite app_length. cbn. lia.
      * rewrite <- app_assoc. cbn [app]. rewrite <- app_assoc in Ny. exact Ny.
      * intros x. rewrite <- app_assoc. cbn [app]. intros Hx. rewrite app_comm_cons, app_assoc in Hx.
        apply in_app_or in Hx as [Hx|Hx]; [now apply HR|]. eapply r_next; [exact HRx|now apply Cr].
      * rewrite <- app_assoc. cbn [app]. rewrite app_comm_cons, app_assoc. intros x y Hx Hc.
        apply in_app_or in Hx as [Hx|[<-|[]]].
        -- rewrite map_app. apply in_or_app. left. eapply HC; eauto.
        -- destruct y as [[B a'] r']. destruct Hc as (s & g & o & N1 & F1 & E1 & _).
           eapply (Fy (faceNo s)); eauto. apply latF_spec. eauto.
      * rewrite <- app_assoc. cbn [app]. rewrite app_comm_cons, app_assoc. apply in_or_app. now left.
      * exists (ys ++ l). 
        assert (V : forall u : cutState, done ++ (u :: check) ++ ys ++ l = (done ++ [u]) ++ (check ++ ys) ++ l).
        { intros u. rewrite <- !app_assoc. cbn. reflexivity. }
        rewrite (V (A, a, r)). split; [|repeat split; assumption]. refine (eq_trans _ El). f_equal. f_equal. rewrite <- !app_assoc. reflexivity.
Qed.
End Path.

(** C77.  On every well-formed grid, the propagation of a cut from any block along any axis ends
    after at most as many rounds as there are blocks, without raising, and lists every block at
    most once, first the block itself; every entry carries an axis and sense transported along
    some chain of connections crossed by the cut; wherever a listed cut meets a connection, the
    block on the other side is listed; and, when the surface passes through each block in one way
    only, the list is exactly the set of blocks, axes and senses it meets. *)
Theorem C77_cut_path : forall mb n b a, wfGrid mb -> closed mb -> blk mb n b ->
  exists states, (forall fuel, (length mb <= fuel)%nat ->
      cutPath fuel mb n (letter a) =
      Some (Some (map (fun x : cutState => let '(B, c, r) := x in (B, letter c, r)) states))) /\
    NoDup (map (fun x : cutState => fst (fst x)) states) /\
    hd_error states = Some (n, a, false) /\
    (forall x, In x states -> reached mb (n, a, false) x) /\
    (forall x B c r, In x states -> crosses mb x (B, c, r) -> exists c' r', In (B, c', r') states) /\
    (unambiguous mb (n, a, false) -> forall x, In x states <-> reached mb (n, a, false) x).
Proof.
  intros mb n b a W C Hb.
  assert (G : forall fuel, (length mb <= fuel)%nat -> exists l,
     pathLoop fuel mb (map enc [(n, a, false)]) (map enc [(n, a, false)]) = Some (Some (map enc ([(n, a, false)] ++ l))) /\
    NoDup (map blockOf ([(n, a, false)] ++ l)) /\
    (forall x, In x ([(n, a, false)] ++ l) -> reached mb (n, a, false) x) /\
    (forall x y, In x ([(n, a, false)] ++ l) -> crosses mb x y -> In (blockOf y) (map blockOf ([(n, a, false)] ++ l)))).
  { intros fuel Hf. destruct (loop_ok mb W C (n, a, false) (ex_intro _ b Hb) fuel [] [(n, a, false)]) as (l & E & R).
    - cbn. lia.
    - cbn. constructor; [easy|constructor].
    - intros x [<-|[]]. constructor.
    - easy.
    - now left.
    - exists l. split; [exact E|exact R]. }
  assert (MONO : forall f1 f2 cut check v, (f1 <= f2)%nat -> pathLoop f1 mb cut check = Some v -> pathLoop f2 mb cut check = Some v).
  { induction f1 as [|f1 IH]; intros f2 cut check v L E.
    - cbn in E. destruct check as [|[[? ?] ?] ?]; [|discriminate]. destruct f2; exact E.
    - destruct f2 as [|f2]; [lia|]. cbn [pathLoop] in E |- *. destruct check as [|[[B x] r] check]; [exact E|].
      destruct (getBlk mb B), (lateral x); try exact E. destruct visits as [[c1 c2]|]; [|exact E].
      apply (IH f2); [lia|exact E]. }
  destruct (G (length mb) (le_n _)) as (l & E & ND & R & Cl).
  assert (Cl' : forall x B c r, In x ((n, a, false) :: l) -> crosses mb x (B, c, r) ->
                exists c' r', In (B, c', r') ((n, a, false) :: l)).
  { intros x B c r Hx Hc. pose proof (Cl _ _ Hx Hc) as Q. apply in_map_iff in Q as ([[B' c'] r'] & E' & I).
    cbn in E'. subst B'. eauto. }
  exists ((n, a, false) :: l). split; [|split; [exact ND|split; [reflexivity|split; [exact R|split; [exact Cl'|]]]]].
  - intros fuel Hf. unfold cutPath. eapply MONO; [exact Hf|]. exact E.
  - intros U x. split; [apply R|]. intros HR. induction HR as [|y z HR IH HC]; [now left|].
    destruct z as [[B c] r]. destruct (Cl' _ _ _ _ IH HC) as (c' & r' & I).
    destruct (U B c r c' r') as [-> ->]; [eapply r_next; eauto|now apply R|exact I].
Qed.

(** A grid on which a cut surface meets block 0 twice: 0 is joined in +j to the -j face of 1, and
    the +j face of 1 is joined to the +i face of 0; block 2 sits on the -i face of 0. *)
Definition turnMb : list gblock :=
  let mk n fs := mkGB n (3, 3, 2) (fun _ _ _ => 0%R) (fun _ _ _ => 0%R) (fun _ _ _ => 0%R)
                   (map (fun k => exFace k (fs k)) [1;2;3;4;5;6]) in
  [ mk 0 (fun k => if k =? 1 then Some (2, "123"%string) else if k =? 2 then Some (1, "513"%string)
                   else if k =? 4 then Some (1, "123"%string) else None);
    mk 1 (fun k => if k =? 3 then Some (0, "123"%string) else if k =? 4 then Some (0, "243"%string) else None);
    mk 2 (fun k => if k =? 2 then Some (0, "123"%string) else None) ].

Definition sameO : orient := fun a => (a, true).
Definition turnO : orient := fun a => match a with I => (J, true) | J => (I, false) | K => (K, true) end.
Definition turnO' : orient := fun a => match a with I => (J, false) | J => (I, true) | K => (K, true) end.

Lemma turn_face n k g : fac turnMb n k g ->
  (n, k, g) = (0, 1, exFace 1 (Some (2, show sameO))) \/ (n, k, g) = (0, 2, exFace 2 (Some (1, show turnO'))) \/
  (n, k, g) = (0, 4, exFace 4 (Some (1, show sameO))) \/ (n, k, g) = (1, 3, exFace 3 (Some (0, show sameO))) \/
  (n, k, g) = (1, 4, exFace 4 (Some (0, show turnO))) \/ (n, k, g) = (2, 2, exFace 2 (Some (0, show sameO))) \/
  g = exFace k None.
Proof.
  intros (b & B & K & E). pose proof (blk_lt _ _ _ B) as L. cbn in L. destruct B as [_ B].
  assert (D : k = 1 \/ k = 2 \/ k = 3 \/ k = 4 \/ k = 5 \/ k = 6) by lia.
  assert (F : n = 0 \/ n = 1 \/ n = 2) by lia.
  destruct F as [->|[->| ->]]; cbn in B; injection B as <-;
  destruct D as [->|[->|[->|[->|[->| ->]]]]]; cbn in E; injection E as <-; cbn; tauto.
Qed.

Lemma show_inj o o' : show o = show o' -> forall c, o c = o' c.
Proof.
  intros S. unfold show in S. injection S as S1 S2 S3.
  assert (T : forall u v, digit_char (saxis_digit u) = digit_char (saxis_digit v) -> u = v).
  { intros [[] []] [[] []] Q; try reflexivity; discriminate Q. }
  intros []; auto.
Qed.

Lemma turn_legal : legal sameO /\ legal turnO /\ legal turnO'.
Proof. repeat split; intros [] []; cbn; congruence. Qed.

Lemma turn_good : wfGrid turnMb /\ closed turnMb /\ reciprocal turnMb.
Proof.
  destruct turn_legal as (L1 & L2 & L3). split; [|split].
  - intros n b H. pose proof (blk_lt _ _ _ H) as L. cbn in L. destruct H as [_ B].
    assert (F : n = 0 \/ n = 1 \/ n = 2) by lia.
    destruct F as [->|[->| ->]]; cbn in B; injection B as <-; split; reflexivity.
  - intros A k g B H E. apply turn_face in H.
    destruct H as [H|[H|[H|[H|[H|[H|H]]]]]]; try (injection H as -> -> ->); try subst g; cbn in E; try discriminate E;
    injection E as <-; (split; [apply blk_ex; cbn; lia|]); eexists; (split; [|reflexivity]); assumption.
  - intros A s g B k H (E & o & Lo & Eo & Ok).
    assert (T : forall n j f, fac turnMb n j f <-> fac turnMb n j f) by tauto.
    apply turn_face in H.
    destruct H as [H|[H|[H|[H|[H|[H|H]]]]]];
      try (injection H as -> Hs ->); try subst g; cbn in E; try discriminate E; injection E as <-;
      (match goal with Hs : faceNo s = ?z |- _ =>
         first [assert (s = (I, false)) by (destruct s as [[] []]; cbn in Hs; congruence)
               |assert (s = (I, true)) by (destruct s as [[] []]; cbn in Hs; congruence)
               |assert (s = (J, false)) by (destruct s as [[] []]; cbn in Hs; congruence)
               |assert (s = (J, true)) by (destruct s as [[] []]; cbn in Hs; congruence)] end; subst s);
      cbn [exFace topo orientation] in Eo;
      (match type of Eo with Some (show ?w) = _ => assert (Q : show w = show o) by congruence end);
      pose proof (show_inj _ _ Q) as V; unfold act in Ok; cbn [fst snd] in Ok; rewrite <- V in Ok; cbn in Ok;
      rewrite (outward_inj _ _ Ok); eexists; (split; [eexists; split; [split; [lia|reflexivity]|]; split; [cbn; lia|reflexivity]|reflexivity]).
Qed.

(** What fails without that condition: from block 0 along i the surface goes through block 1 and
    comes back into block 0 along j, which takes it to block 2 - but block 0 is already listed, so
    block 2 is never reached. *)
Theorem C77_two_ways_refuted : exists mb n a B c r,
  wfGrid mb /\ closed mb /\ reciprocal mb /\ reached mb (n, a, false) (B, c, r) /\
  exists l, (forall fuel, (length mb <= fuel)%nat -> cutPath fuel mb n (letter a) = Some (Some l)) /\
    ~ In B (map (fun it => fst (fst it)) l).
Proof.
  destruct turn_good as (W & C & R). destruct turn_legal as (L1 & L2 & L3).
  exists turnMb, 0, I, 2, J, false. split; [exact W|]. split; [exact C|]. split; [exact R|]. split.
  - apply r_next with (y := (0, J, false)).
    + apply r_next with (y := (1, I, false)).
      * apply r_next with (y := (0, I, false)); [constructor|].
        exists (J, true), (exFace 4 (Some (1, show sameO))), sameO. repeat split; try discriminate; try exact L1.
        eexists. split; [split; [lia|reflexivity]|]. split; [cbn; lia|reflexivity].
      * exists (J, true), (exFace 4 (Some (0, show turnO))), turnO. repeat split; try discriminate; try exact L2.
        eexists. split; [split; [lia|reflexivity]|]. split; [cbn; lia|reflexivity].
    + exists (I, false), (exFace 1 (Some (2, show sameO))), sameO. repeat split; try discriminate; try exact L1.
      eexists. split; [split; [lia|reflexivity]|]. split; [cbn; lia|reflexivity].
  - destruct (blk_ex turnMb 0) as [b Hb]; [cbn; lia|].
    destruct (C77_cut_path turnMb 0 b I W C Hb) as (st & E & _).
    assert (E3 : cutPath 3 turnMb 0 (letter I) = Some (Some [(0, "i"%string, false); (1, "i"%string, false)])) by reflexivity.
    exists [(0, "i"%string, false); (1, "i"%string, false)]. split.
    + intros fuel Hf. refine (eq_trans (E fuel Hf) _). refine (eq_trans (eq_sym (E 3%nat _)) E3). cbn. lia.
    + cbn. lia.
Qed.

(** The hypotheses of C77 are met by the example of C76, where the surface j = const of block 0
    continues in block 1 along -k. *)
Example C77_ex : cutPath 2 exMb 0 (letter J) = Some (Some [(0, "j"%string, false); (1, "k"%string, true)]).
Proof. reflexivity. Qed.

Print Assumptions C77_cut_path.
