(** C58 - C61, C95, C96: configuration. *)
From Coq Require Import Reals ZArith String Ascii List Bool Lia Lra.
From Verif Require Import M_Topology M_Halo M_Grid M_Metrics M_Flux M_FluxKernels M_Config S_Config L_Vec.
Import ListNotations.
Open Scope string_scope.

(** * dictionaries *)
Lemma lookup_assign {V} k k' (v : V) l : lookup k (assign k' v l) = if String.eqb k k' then Some v else lookup k l.
Proof.
  induction l as [|[a x] l IH]; cbn [assign lookup].
  - destruct (String.eqb_spec k k'); reflexivity.
  - destruct (String.eqb_spec k' a) as [-> | n]; cbn [lookup].
    + destruct (String.eqb_spec k a); reflexivity.
    + destruct (String.eqb_spec k a) as [-> | n']; [ | exact IH]. destruct (String.eqb_spec a k'); [congruence | reflexivity].
Qed.
Lemma keys_assign {V} k (v : V) l : (exists x, lookup k l = Some x) -> map fst (assign k v l) = map fst l.
Proof.
  intros [x H]. revert H. induction l as [|[a y] l IH]; cbn [assign lookup map]; [discriminate | ].
  destruct (String.eqb_spec k a) as [-> | n]; intros H; cbn [map fst]; [reflexivity | f_equal; auto].
Qed.
Lemma lookup_key {V} k (l : list (string * V)) : (exists x, lookup k l = Some x) <-> In k (map fst l).
Proof.
  induction l as [|[a y] l IH]; cbn [lookup map In fst]; [split; [intros [x H]; discriminate | tauto] | ].
  destruct (String.eqb_spec k a) as [-> | n]; [split; [auto | eexists; reflexivity] | rewrite IH; intuition; congruence].
Qed.
Definition keysOf {V} (d : fdict V) : list string := map fst (entries d).

(** * C58 *)
Definition itemOp {V} (o : dictOp V) : Prop := match o with OpGet _ | OpSet _ _ => True | _ => False end.
(** setting: an unknown key raises and changes nothing, a known one is stored and nothing else changes *)
Theorem C58_set : forall V (d : fdict V) k v, frozen d = true ->
  (~ In k (keysOf d) -> setitem d k v = None) /\
  (In k (keysOf d) -> exists d', setitem d k v = Some d' /\ keysOf d' = keysOf d /\ frozen d' = true /\ getitem d' k = Some v /\ forall k', k' <> k -> getitem d' k' = getitem d k').
Proof.
  intros V d k v F. unfold setitem, hasKey, getitem, keysOf. rewrite F. split; intros H.
  - destruct (lookup k (entries d)) eqn:E; [ | reflexivity]. exfalso. apply H, lookup_key. eauto.
  - apply lookup_key in H. destruct H as [x E]. rewrite E. cbn [andb negb]. eexists. split; [reflexivity | ]. cbn [entries frozen].
    split; [apply keys_assign; eauto | ]. split; [reflexivity | ]. split; [rewrite lookup_assign, String.eqb_refl; reflexivity | ].
    intros k' N. rewrite lookup_assign. destruct (String.eqb_spec k' k); [contradiction | reflexivity].
Qed.
Theorem C58_get : forall V (d : fdict V) k, getitem d k = None <-> ~ In k (keysOf d).
Proof.
  intros. unfold keysOf. rewrite <- lookup_key. unfold getitem. destruct (lookup k (entries d)); split; intros H; try congruence; [destruct H; eauto | intros [x X]; discriminate].
Qed.
(** no sequence of reads and item assignments changes the set of keys of a frozen dictionary, whether or not some of them raise *)
Theorem C58_key_set_fixed : forall V (os : list (dictOp V)) d, frozen d = true -> (forall o, In o os -> itemOp o) ->
  keysOf (execOps d os) = keysOf d /\ frozen (execOps d os) = true.
Proof.
  intros V os. unfold execOps. induction os as [|o os IH]; intros d F H; [auto | ]. cbn [fold_left].
  assert (S : keysOf (fst (execOp d o)) = keysOf d /\ frozen (fst (execOp d o)) = true).
  { assert (I : itemOp o) by (apply H; left; reflexivity). destruct o as [k | k v | | |]; try contradiction; cbn [execOp fst]; [auto | ].
    destruct (C58_set V d k v F) as [A B]. destruct (in_dec String.string_dec k (keysOf d)) as [i | i].
    - destruct (B i) as (d' & E & K & F' & _). rewrite E. cbn [fst]. auto.
    - rewrite (A i). cbn [fst]. auto. }
  destruct S as [S1 S2]. destruct (IH _ S2) as [I1 I2]; [intros; apply H; right; assumption | ]. rewrite I1, I2. auto.
Qed.
(** the dictionary methods update and setdefault add keys to a frozen dictionary, pop removes them *)
Theorem C58_other_methods_refuted : exists (d : fdict value), frozen d = true /\ frozen (fst (execOp d (OpUpdate [("typo", VNone)]))) = true /\
  keysOf (fst (execOp d (OpUpdate [("typo", VNone)]))) <> keysOf d /\ keysOf (fst (execOp d (OpSetdefault "typo" VNone))) <> keysOf d /\
  keysOf (fst (execOp d (OpPop "niter"))) <> keysOf d /\
  snd (execOp d (OpUpdate [("typo", VNone)])) = true /\ snd (execOp d (OpSetdefault "typo" VNone)) = true /\ snd (execOp d (OpPop "niter")) = true.
Proof. exists (mkFD [("niter", VInt 1)] true). repeat split; cbn; discriminate. Qed.
(** freezing keeps every entry; from then on an assignment to a new key raises and changes nothing, an assignment to an old one works *)
Theorem C58_freeze : forall V (d : fdict V) k v, (forall k', getitem (M_Config.freeze d) k' = getitem d k') /\ keysOf (M_Config.freeze d) = keysOf d /\
  (~ In k (keysOf d) -> execOp (M_Config.freeze d) (OpSet k v) = (M_Config.freeze d, false)) /\
  (In k (keysOf d) -> snd (execOp (M_Config.freeze d) (OpSet k v)) = true /\ getitem (fst (execOp (M_Config.freeze d) (OpSet k v))) k = Some v).
Proof.
  intros V d k v. destruct (C58_set V (M_Config.freeze d) k v eq_refl) as [A B]. split; [reflexivity|]. split; [reflexivity|]. split.
  - intros H. cbn [execOp]. now rewrite (A H).
  - intros H. destruct (B H) as (d' & E & _ & _ & G & _). cbn [execOp]. rewrite E. now split.
Qed.

(** * reading a configuration *)
Lemma getitem_assign {V} (l : list (string * V)) fr s d k : getitem (mkFD (assign s d l) fr) k = if String.eqb k s then Some d else lookup k l.
Proof. unfold getitem. cbn [entries]. apply lookup_assign. Qed.
Lemma wf_default : wellFormed defaultConfig.
Proof.
  split; [reflexivity | ]. split; [reflexivity | ]. intros s d H. split; [ | eauto].
  unfold getitem, defaultConfig in H. cbn [entries lookup] in H.
  repeat (destruct (String.eqb s _); [injection H as <-; reflexivity | ]). discriminate.
Qed.
Lemma cset_spec c s k v : wellFormed c -> (knownSetting s k -> exists c', cset c s k v = Some c' /\ wellFormed c' /\ cget c' s k = Some v /\
    forall s' k', (s', k') <> (s, k) -> cget c' s' k' = cget c s' k') /\ (~ knownSetting s k -> cset c s k v = None).
Proof.
  intros (F & K & W). unfold cset, cget, knownSetting, cget.
  destruct (getitem c s) as [d|] eqn:G.
  - destruct (W s d G) as (Fd & d0 & G0 & Kd). rewrite G0.
    assert (IK : (exists v0, getitem d0 k = Some v0) <-> In k (keysOf d)) by (unfold keysOf; rewrite Kd; apply lookup_key).
    destruct (C58_set _ d k v Fd) as [A B]. split; intros H.
    + apply IK in H. destruct (B H) as (d' & E & Kd' & Fd' & Gv & Go). rewrite E. eexists. split; [reflexivity | ].
      assert (GA : forall x, getitem (mkFD (assign s d' (entries c)) (frozen c)) x = if String.eqb x s then Some d' else getitem c x) by (intros; apply getitem_assign).
      split; [ | split].
      * split; [exact F | ]. split; [cbn [entries]; rewrite keys_assign by (exists d; exact G); exact K | ].
        intros s' d'' H'. rewrite GA in H'. destruct (String.eqb_spec s' s) as [-> | N]; [ | apply W; exact H'].
        injection H' as <-. split; [exact Fd' | ]. exists d0. split; [exact G0 | ]. fold (keysOf d'). rewrite Kd'. exact Kd.
      * rewrite GA, String.eqb_refl. exact Gv.
      * intros s' k' N. rewrite GA. destruct (String.eqb_spec s' s) as [-> | N']; [ | reflexivity]. rewrite G. apply Go. congruence.
    + rewrite A; [reflexivity | ]. rewrite <- IK. exact H.
  - split; intros H; [exfalso | reflexivity].
    assert (N : ~ In s (map fst (entries c))) by (rewrite <- lookup_key; intros [x X]; unfold getitem in G; congruence).
    rewrite K in N. rewrite <- lookup_key in N. destruct H as [v0 H]. destruct (getitem defaultConfig s) as [x|] eqn:X; [apply N; exists x; exact X | discriminate].
Qed.
(** a document is a list of sections; the value a setting ends up with is the last one written, or the default *)
Fixpoint lastIn (k : string) (kvs : list (string * value)) (acc : option value) : option value :=
  match kvs with [] => acc | (k', v) :: r => lastIn k r (if String.eqb k k' then Some v else acc) end.
Fixpoint lastWritten (s k : string) (doc : list (string * list (string * value))) (acc : option value) : option value :=
  match doc with [] => acc | (s', kvs) :: r => lastWritten s k r (if String.eqb s s' then lastIn k kvs acc else acc) end.
Lemma known_dec s k : knownSetting s k \/ ~ knownSetting s k.
Proof. unfold knownSetting. destruct (cget defaultConfig s k); [left; eauto | right; intros [x X]; discriminate]. Qed.
Lemma setKeys_spec s kvs : forall c, wellFormed c ->
  ((forall k v, In (k, v) kvs -> knownSetting s k) -> exists c', setKeys c s kvs = Some c' /\ wellFormed c' /\
     forall s' k', cget c' s' k' = if String.eqb s' s then lastIn k' kvs (cget c s' k') else cget c s' k') /\
  ((exists k v, In (k, v) kvs /\ ~ knownSetting s k) -> setKeys c s kvs = None).
Proof.
  induction kvs as [|[k v] r IH]; intros c W.
  - split; [intros _; exists c; cbn; split; [reflexivity | split; [exact W | intros; destruct (String.eqb _ _); reflexivity]] | intros (k & v & [] & _)].
  - destruct (cset_spec c s k v W) as [A B]. cbn [setKeys]. split; intros H.
    + destruct (A (H k v (or_introl eq_refl))) as (c' & E & W' & G & O). rewrite E.
      destruct (proj1 (IH c' W') (fun k0 v0 I => H k0 v0 (or_intror I))) as (c'' & E' & W'' & L). exists c''. split; [exact E' | ]. split; [exact W'' | ].
      intros s' k'. rewrite L. cbn [lastIn]. destruct (String.eqb_spec s' s) as [-> | N]; [ | apply O; congruence].
      destruct (String.eqb_spec k' k) as [-> | N]; [rewrite G; reflexivity | rewrite O by congruence; reflexivity].
    + destruct (known_dec s k) as [Kn | Kn]; [ | rewrite (B Kn); reflexivity]. destruct (A Kn) as (c' & E & W' & _). rewrite E.
      apply (proj2 (IH c' W')). destruct H as (k0 & v0 & [X | X] & N); [congruence | eauto].
Qed.
Lemma readInto_spec doc : forall c, wellFormed c ->
  ((forall s kvs k v, In (s, kvs) doc -> In (k, v) kvs -> knownSetting s k) -> exists c', readInto c doc = Some c' /\ wellFormed c' /\
     forall s' k', cget c' s' k' = lastWritten s' k' doc (cget c s' k')) /\
  ((exists s kvs k v, In (s, kvs) doc /\ In (k, v) kvs /\ ~ knownSetting s k) -> readInto c doc = None).
Proof.
  induction doc as [|[s kvs] r IH]; intros c W.
  - split; [intros _; exists c; cbn; auto | intros (s & kvs & k & v & [] & _)].
  - destruct (setKeys_spec s kvs c W) as [A B]. cbn [readInto]. split; intros H.
    + destruct (A (fun k v I => H s kvs k v (or_introl eq_refl) I)) as (c' & E & W' & L). rewrite E.
      destruct (proj1 (IH c' W') (fun s0 kvs0 k0 v0 I J => H s0 kvs0 k0 v0 (or_intror I) J)) as (c'' & E' & W'' & L'). exists c''. split; [exact E' | ]. split; [exact W'' | ].
      intros s' k'. rewrite L', L. cbn [lastWritten]. reflexivity.
    + assert (D : (forall k v, In (k, v) kvs -> knownSetting s k) \/ exists k v, In (k, v) kvs /\ ~ knownSetting s k).
      { clear. induction kvs as [|[k v] r IH]; [left; intros k v [] | ]. destruct (known_dec s k) as [K | K]; [ | right; exists k, v; split; [left; reflexivity | exact K]].
        destruct IH as [L | (k' & v' & I & N)]; [left; intros k' v' [X | X]; [congruence | eauto] | right; exists k', v'; split; [right; exact I | exact N]]. }
      destruct D as [D | D]; [ | rewrite (B D); reflexivity]. destruct (A D) as (c' & E & W' & _). rewrite E. apply (proj2 (IH c' W')).
      destruct H as (s0 & kvs0 & k0 & v0 & [X | X] & I & N); [injection X as <- <-; exfalso; apply N; eapply D; exact I | eauto 8].
Qed.
(** an input file with an unknown section or key is rejected; otherwise every setting has the last value written for it, or its default *)
Theorem C58_input_file : forall doc,
  ((exists s kvs k v, In (s, kvs) doc /\ In (k, v) kvs /\ ~ knownSetting s k) -> readConfig doc = None) /\
  ((forall s kvs k v, In (s, kvs) doc -> In (k, v) kvs -> knownSetting s k) -> exists c, readConfig doc = Some c /\ wellFormed c /\
     forall s k, cget c s k = lastWritten s k doc (cget defaultConfig s k)).
Proof. intros doc. destruct (readInto_spec doc defaultConfig wf_default) as [A B]. split; [exact B | exact A]. Qed.
Example C58_nonvacuous : readConfig [("RHS", [("diffusion", VBool true)]); ("simulation", [("niter", VInt 5); ("niter", VInt 7)])] <> None /\
  readConfig [("RHS", [("difusion", VBool true)])] = None.
Proof. split; cbn; [discriminate | reflexivity]. Qed.

(** * C59 *)
Lemma wf_cget c s k : wellFormed c -> knownSetting s k -> exists v, cget c s k = Some v.
Proof.
  intros (F & K & W) [v0 H]. unfold cget in *. destruct (getitem defaultConfig s) as [d0|] eqn:G0; [ | discriminate].
  assert (I : In s (map fst (entries c))) by (rewrite K; apply lookup_key; exists d0; exact G0). apply lookup_key in I. destruct I as [d G]. change (lookup s (entries c)) with (getitem c s) in G. rewrite G.
  destruct (W s d G) as (_ & d0' & G0' & Kd). rewrite G0 in G0'. injection G0' as <-. apply lookup_key. rewrite Kd. apply lookup_key. eauto.
Qed.
(** the settings a configuration knows and the values they have when the input file does not mention them are those of the table *)
Lemma defaults_table : forall s k v, cget defaultConfig s k = Some v <-> In (s, k, v) documentedDefaults.
Proof.
  assert (R3 : (1 / 1000 = 1 / 10 ^ 3)%R) by (simpl; lra).
  intros s k v. split.
  - unfold cget, getitem, defaultConfig. cbn [entries lookup]. rewrite !R3.
    repeat (match goal with |- context [String.eqb s ?x] => destruct (String.eqb_spec s x) as [-> | _] end;
      [cbn [entries lookup]; repeat (match goal with |- context [String.eqb k ?x] => destruct (String.eqb_spec k x) as [-> | _] end;
         [intros H; injection H as <-; unfold documentedDefaults; cbn [In]; repeat (first [left; reflexivity | right]) | ]); discriminate | ]); discriminate.
  - intros H. unfold documentedDefaults in H. cbn [In] in H. rewrite <- R3 in H.
    repeat (destruct H as [H | H]; [injection H as <- <- <-; reflexivity | ]). destruct H.
Qed.
Theorem C58_defaults : forall doc c, readConfig doc = Some c -> forall s k,
  ((exists v, cget c s k = Some v) <-> exists v, In (s, k, v) documentedDefaults) /\
  ((forall kvs v, In (s, kvs) doc -> ~ In (k, v) kvs) -> forall v, cget c s k = Some v <-> In (s, k, v) documentedDefaults).
Proof.
  intros doc c H s k. destruct (C58_input_file doc) as [A B].
  assert (Kn : forall s kvs k v, In (s, kvs) doc -> In (k, v) kvs -> knownSetting s k).
  { intros s0 kvs k0 v I J. destruct (known_dec s0 k0) as [X | X]; [exact X | ]. rewrite A in H; [discriminate | ]. exists s0, kvs, k0, v. auto. }
  destruct (B Kn) as (c' & E & W & L). assert (c' = c) as -> by congruence. split.
  - split.
    + intros [v Hv]. rewrite L in Hv.
      assert (G : forall doc acc, (forall kvs k v, In (s, kvs) doc -> In (k, v) kvs -> knownSetting s k) -> lastWritten s k doc acc = Some v -> acc = Some v \/ knownSetting s k).
      { clear. induction doc as [|[s' kvs] r IH]; intros acc Kn H; [left; exact H | ]. cbn [lastWritten] in H. apply IH in H; [ | intros; eapply Kn; [right; eassumption | eassumption]].
        destruct H as [H | H]; [ | right; exact H]. destruct (String.eqb_spec s s') as [<- | N]; [ | left; exact H].
        assert (Q : forall kvs acc, (forall k v, In (k, v) kvs -> knownSetting s k) -> lastIn k kvs acc = Some v -> acc = Some v \/ knownSetting s k).
        { clear. induction kvs as [|[k' v'] r IH]; intros acc Kn H; [left; exact H | ]. cbn [lastIn] in H. apply IH in H; [ | intros; eapply Kn; right; eassumption].
          destruct H as [H | H]; [ | right; exact H]. destruct (String.eqb_spec k k') as [<- | N]; [right; eapply Kn; left; reflexivity | left; exact H]. }
        apply Q in H; [exact H | intros; eapply Kn; [left; reflexivity | eassumption]]. }
      destruct (G doc _ (fun kvs k v => Kn s kvs k v) Hv) as [X | [x X]]; eexists; apply defaults_table; exact X.
    + intros [v I]. apply defaults_table in I. exact (wf_cget c s k W (ex_intro _ v I)).
  - intros NM v. rewrite L.
    assert (G : forall doc acc, (forall kvs v, In (s, kvs) doc -> ~ In (k, v) kvs) -> lastWritten s k doc acc = acc).
    { clear. induction doc as [|[s' kvs] r IH]; intros acc N; [reflexivity | ]. cbn [lastWritten]. rewrite IH by (intros; apply N; right; assumption).
      destruct (String.eqb_spec s s') as [<- | _]; [ | reflexivity]. assert (N' : forall v, ~ In (k, v) kvs) by (intros v; apply N; left; reflexivity). clear N IH.
      revert acc. induction kvs as [|[k' v'] q IH]; intros acc; [reflexivity | ]. cbn [lastIn]. destruct (String.eqb_spec k k') as [<- | _]; [elim (N' v'); left; reflexivity | ].
      apply IH. intros v I. apply (N' v). right. exact I. }
    rewrite G by exact NM. apply defaults_table.
Qed.
Example C58_defaults_nonvacuous : exists c, readConfig [("RHS", [("diffusion", VBool true)])] = Some c /\ cget c "viscousSponge" "multiplier" = Some (VReal 5) /\ cget c "RHS" "diffusion" = Some (VBool true).
Proof. eexists. split; [reflexivity | split; reflexivity]. Qed.
Lemma opt_cset c s k v c' : wellFormed c -> cset c s k v = Some c' -> wellFormed c' /\ opt c' s k = v /\ forall s' k', (s', k') <> (s, k) -> opt c' s' k' = opt c s' k'.
Proof.
  intros W E. destruct (cset_spec c s k v W) as [A B]. destruct (known_dec s k) as [K | K]; [ | rewrite (B K) in E; discriminate].
  destruct (A K) as (c'' & E' & W' & G & O). rewrite E in E'. injection E' as <-. split; [exact W' | ]. unfold opt. split; [rewrite G; reflexivity | ].
  intros s' k' N. rewrite (O s' k' N). reflexivity.
Qed.
Lemma cset_known c s k v : wellFormed c -> knownSetting s k -> exists c', cset c s k v = Some c' /\ wellFormed c' /\ opt c' s k = v /\ forall s' k', (s', k') <> (s, k) -> opt c' s' k' = opt c s' k'.
Proof.
  intros W K. destruct (proj1 (cset_spec c s k v W) K) as (c' & E & _). exists c'. split; [exact E | ]. eapply opt_cset; eauto.
Qed.
Lemma isStr_iff v s : isStr v s = true <-> v = VStr s.
Proof. destruct v; cbn; try (split; discriminate). rewrite String.eqb_eq. split; congruence. Qed.
Lemma isNone_iff v : isNone v = true <-> v = VNone.
Proof. destruct v; cbn; split; congruence. Qed.
Lemma isStr_no v s : isStr v s = false <-> v <> VStr s.
Proof. rewrite <- isStr_iff. destruct (isStr v s); split; congruence. Qed.
Lemma isNone_no v : isNone v = false <-> v <> VNone.
Proof. rewrite <- isNone_iff. destruct (isNone v); split; congruence. Qed.
Definition numberBy (parse : string -> option R) (v : value) : Prop := exists r, toFloat parse v = Some r.
Ltac known := unfold knownSetting; eexists; reflexivity.
Theorem C59_rules : forall parse c, wellFormed c -> ((exists c', validateConfig parse c = Some c') <-> consistentSettings (numberBy parse) c).
Proof.
  intros parse c W.
  assert (S1 : exists c1, (if isNone (opt c "io" "saveExtraVars") then cset c "io" "saveExtraVars" (VList []) else Some c) = Some c1 /\ wellFormed c1 /\
     forall s k, (s, k) <> ("io", "saveExtraVars") -> opt c1 s k = opt c s k).
  { destruct (isNone _); [ | exists c; auto]. destruct (cset_known c "io" "saveExtraVars" (VList []) W ltac:(known)) as (c1 & E & W1 & _ & O). eauto. }
  destruct S1 as (c1 & E1 & W1 & O1). unfold validateConfig. rewrite E1. rewrite (O1 "timeIntegration" "dt") by discriminate.
  destruct (toFloat parse (opt c "timeIntegration" "dt")) as [dt|] eqn:Dt.
  2:{ split; [intros [c' X]; discriminate | intros [? ? ? ? ? ? ? ? N ?]]. destruct N as [r N]. congruence. }
  destruct (cset_known c1 "timeIntegration" "dt" (VReal dt) W1 ltac:(known)) as (c2 & E2 & W2 & _ & O2). rewrite E2.
  assert (O : forall s k, (s, k) <> ("io", "saveExtraVars") -> (s, k) <> ("timeIntegration", "dt") -> opt c2 s k = opt c s k) by (intros; rewrite O2, O1 by assumption; reflexivity).
  rewrite !(O1 "timeIntegration" "integrator"), !(O1 "thermochem" "eos") by discriminate.
  rewrite !(O "timeIntegration" "variableTimeStep"), !(O "RHS" "primaryAdvFlux"), !(O "RHS" "secondaryAdvFlux"), !(O "RHS" "switchAdvFlux"), !(O "RHS" "shockHandling"),
    !(O "viscousSponge" "spongeON"), !(O "RHS" "diffusion"), !(O "thermochem" "nChemSubSteps") by discriminate. cbv zeta.
  set (ti := opt c "timeIntegration" "integrator"). set (eos := opt c "thermochem" "eos"). set (var := opt c "timeIntegration" "variableTimeStep").
  set (pr := opt c "RHS" "primaryAdvFlux"). set (sc := opt c "RHS" "secondaryAdvFlux"). set (sw := opt c "RHS" "switchAdvFlux"). set (sh := opt c "RHS" "shockHandling").
  set (sp := opt c "viscousSponge" "spongeON"). set (df := opt c "RHS" "diffusion"). set (nc := opt c "thermochem" "nChemSubSteps").
  split.
  - intros [c' X].
    destruct (isStr ti "dualTime" && negb (isStr eos "cpg" || isStr eos "tpg"))%bool eqn:T1; [discriminate | ].
    destruct (isStr ti "dualTime" && truthy var)%bool eqn:T2; [discriminate | ].
    destruct (isNone pr) eqn:T3; [discriminate | ].
    destruct (isStr sh "artificialDissipation" && negb (isStr sc "scalarDissipation"))%bool eqn:T4; [discriminate | ].
    destruct (isStr sh "hybrid" && isStr sc "scalarDissipation")%bool eqn:T5; [discriminate | ].
    destruct (negb (isNone sh) && isNone sc)%bool eqn:T6; [discriminate | ].
    destruct (if isNone sw then negb (isNone sc) else isNone sc) eqn:T7; [discriminate | ].
    destruct (truthy sp && negb (truthy df))%bool eqn:T8; [discriminate | ].
    destruct (atLeast1 nc) eqn:T9; [ | discriminate].
    constructor.
    + intros H. apply isStr_iff in H. fold ti in H. rewrite H in T1. cbn [andb] in T1. apply negb_false_iff, orb_true_iff in T1. rewrite !isStr_iff in T1. exact T1.
    + intros H. apply isStr_iff in H. fold ti in H. rewrite H in T2. exact T2.
    + apply isNone_no in T3. exact T3.
    + intros H. apply isStr_iff in H. fold sh in H. rewrite H in T4. cbn [andb] in T4. apply negb_false_iff, isStr_iff in T4. exact T4.
    + intros H. apply isStr_iff in H. fold sh in H. rewrite H in T5. cbn [andb] in T5. apply isStr_no in T5. exact T5.
    + intros H. apply isNone_no in H. fold sh in H. rewrite H in T6. cbn [andb negb] in T6. apply isNone_no in T6. exact T6.
    + fold sc sw. rewrite <- !isNone_no. destruct (isNone sw), (isNone sc); cbn in T7; intuition congruence.
    + fold sp df. intros H. rewrite H in T8. cbn [andb] in T8. apply negb_false_iff in T8. exact T8.
    + exists dt. exact Dt.
    + fold nc. destruct nc; cbn in T9; try discriminate; exact I.
  - intros [r1 r2 r3 r4 r5 r6 r7 r8 r9 r10].
    fold ti in r1, r2. fold eos in r1. fold var in r2. fold pr in r3. fold sh in r4, r5, r6. fold sc in r4, r5, r6, r7. fold sw in r7. fold sp df in r8. fold nc in r10.
    replace (isStr ti "dualTime" && negb (isStr eos "cpg" || isStr eos "tpg"))%bool with false.
    2:{ symmetry. destruct (isStr ti "dualTime") eqn:T; [ | reflexivity]. apply isStr_iff in T. cbn [andb]. apply negb_false_iff, orb_true_iff. rewrite !isStr_iff. auto. }
    replace (isStr ti "dualTime" && truthy var)%bool with false by (symmetry; destruct (isStr ti "dualTime") eqn:T; [apply isStr_iff in T; cbn [andb]; auto | reflexivity]).
    replace (isNone pr) with false by (symmetry; apply isNone_no; exact r3).
    replace (isStr sh "artificialDissipation" && negb (isStr sc "scalarDissipation"))%bool with false.
    2:{ symmetry. destruct (isStr sh "artificialDissipation") eqn:T; [ | reflexivity]. apply isStr_iff in T. cbn [andb]. apply negb_false_iff, isStr_iff. auto. }
    replace (isStr sh "hybrid" && isStr sc "scalarDissipation")%bool with false.
    2:{ symmetry. destruct (isStr sh "hybrid") eqn:T; [ | reflexivity]. apply isStr_iff in T. cbn [andb]. apply isStr_no. auto. }
    replace (negb (isNone sh) && isNone sc)%bool with false.
    2:{ symmetry. destruct (isNone sh) eqn:T; [ reflexivity | ]. apply isNone_no in T. cbn [andb negb]. apply isNone_no. auto. }
    replace (if isNone sw then negb (isNone sc) else isNone sc) with false.
    2:{ symmetry. rewrite <- !isNone_no in r7. destruct (isNone sw), (isNone sc); cbn; intuition congruence. }
    replace (truthy sp && negb (truthy df))%bool with false.
    2:{ symmetry. destruct (truthy sp) eqn:T; [ | reflexivity]. cbn [andb]. apply negb_false_iff. auto. }
    assert (A : exists n, atLeast1 nc = Some n) by (destruct nc; cbn in *; try contradiction; eexists; reflexivity). destruct A as [n A]. rewrite A.
    destruct (cset_known c2 "thermochem" "nChemSubSteps" n W2 ltac:(known)) as (c3 & E3 & _). eauto.
Qed.
(** validation changes nothing but: a missing list of extra variables becomes empty, dt becomes a number, and there is at least one chemistry substep *)
Theorem C59_changes : forall parse c c', wellFormed c -> validateConfig parse c = Some c' ->
  (forall s k, (s, k) <> ("io", "saveExtraVars") -> (s, k) <> ("timeIntegration", "dt") -> (s, k) <> ("thermochem", "nChemSubSteps") -> opt c' s k = opt c s k) /\
  opt c' "io" "saveExtraVars" = match opt c "io" "saveExtraVars" with VNone => VList [] | v => v end /\
  (exists r, toFloat parse (opt c "timeIntegration" "dt") = Some r /\ opt c' "timeIntegration" "dt" = VReal r) /\
  (match opt c' "thermochem" "nChemSubSteps" with VInt n => (1 <= n)%Z | VReal r => (1 < r)%R | _ => False end) /\
  (forall n, opt c "thermochem" "nChemSubSteps" = VInt n -> (1 <= n)%Z -> opt c' "thermochem" "nChemSubSteps" = VInt n).
Proof.
  intros parse c c' W. unfold validateConfig.
  assert (S1 : exists c1, (if isNone (opt c "io" "saveExtraVars") then cset c "io" "saveExtraVars" (VList []) else Some c) = Some c1 /\ wellFormed c1 /\
     opt c1 "io" "saveExtraVars" = match opt c "io" "saveExtraVars" with VNone => VList [] | v => v end /\
     forall s k, (s, k) <> ("io", "saveExtraVars") -> opt c1 s k = opt c s k).
  { destruct (isNone _) eqn:N.
    - apply isNone_iff in N. rewrite N. destruct (cset_known c "io" "saveExtraVars" (VList []) W ltac:(known)) as (c1 & E & W1 & V & O). eauto.
    - exists c. split; [reflexivity | ]. split; [exact W | ]. split; [destruct (opt c _ _); try reflexivity; discriminate | auto]. }
  destruct S1 as (c1 & E1 & W1 & V1 & O1). rewrite E1. rewrite (O1 "timeIntegration" "dt") by discriminate.
  destruct (toFloat parse (opt c "timeIntegration" "dt")) as [dt|] eqn:Dt; [ | discriminate].
  destruct (cset_known c1 "timeIntegration" "dt" (VReal dt) W1 ltac:(known)) as (c2 & E2 & W2 & V2 & O2). rewrite E2. cbv zeta.
  repeat match goal with |- (if ?b then None else _) = Some c' -> _ => destruct b; [discriminate | ] end.
  destruct (atLeast1 (opt c2 "thermochem" "nChemSubSteps")) as [n|] eqn:A; [ | discriminate]. intros E3.
  destruct (opt_cset _ _ _ _ _ W2 E3) as (W3 & V3 & O3).
  split; [intros; rewrite O3, O2, O1 by assumption; reflexivity | ].
  split; [rewrite O3, O2 by discriminate; exact V1 | ].
  split; [exists dt; split; [reflexivity | rewrite O3 by discriminate; exact V2] | ].
  rewrite O2, O1 in A by discriminate. rewrite V3. split.
  - destruct (opt c "thermochem" "nChemSubSteps") as [ |b|z|r|s|l|x y z]; cbn [atLeast1] in A; try discriminate;
      [injection A as <-; lia | assert (X : n = VInt (Z.max 1 z)) by congruence; rewrite X; lia | destruct (Rlt_dec 1 r); injection A as <-; [assumption | lia]].
  - intros m Hm L. rewrite Hm in A. cbn [atLeast1] in A. rewrite Z.max_r in A by lia. congruence.
Qed.
Theorem C59_default_accepted : forall parse, exists c', validateConfig parse defaultConfig = Some c'.
Proof.
  intros parse. apply C59_rules; [exact wf_default | ]. constructor; cbn; try discriminate; try tauto; try (intros; discriminate). eexists; reflexivity.
Qed.

(** * C60: every value a selected flux reads exists *)
Definition dependsOn (lo hi : Z) (f : flux1) : Prop := forall g st st', (forall m, (lo <= m <= hi)%Z -> st m = st' m) -> forall l, f g st l = f g st' l.
Ltac two H := rewrite (H (-1)%Z), (H 0%Z) by lia; reflexivity.
Lemma dep_KEEP : dependsOn (-1) 0 KEEP. Proof. intros g st st' H l. unfold KEEP. two H. Qed.
Lemma dep_KEEPpe : dependsOn (-1) 0 KEEPpe. Proof. intros g st st' H l. unfold KEEPpe. two H. Qed.
Lemma dep_KEPaEC : dependsOn (-1) 0 KEPaEC. Proof. intros g st st' H l. unfold KEPaEC. two H. Qed.
Lemma dep_central : dependsOn (-1) 0 centralDifference. Proof. intros g st st' H l. unfold centralDifference. two H. Qed.
Lemma dep_rusanov : dependsOn (-1) 0 rusanov. Proof. intros g st st' H l. unfold rusanov. two H. Qed.
Lemma dep_hllc : dependsOn (-1) 0 hllc. Proof. intros g st st' H l. unfold hllc. two H. Qed.
Lemma keepSum_ext f f' : (forall a b, (-2 <= a <= 1)%Z -> (-2 <= b <= 1)%Z -> f a b = f' a b) -> keepSum f = keepSum f'.
Proof.
  intros H. unfold keepSum. change (zrange 1 3) with [1; 2]%Z. cbn [fold_left]. change (zrange 0 1) with [0]%Z. change (zrange 0 2) with [0; 1]%Z. cbn [fold_left].
  rewrite !H by lia. reflexivity.
Qed.
Lemma dep_fourth : dependsOn (-2) 1 fourthOrderKEEP.
Proof.
  intros g st st' H l. unfold fourthOrderKEEP. cbv zeta.
  repeat match goal with |- context [keepSum ?f] => match f with context [st] =>
    let f' := (eval pattern st in f) in match f' with ?F _ => rewrite (keepSum_ext f (F st')) by (intros a b Ha Hb; cbv beta; rewrite ?(H a Ha), ?(H b Hb); reflexivity); cbv beta end end end.
  unfold comp. destruct (l =? 0)%Z; [reflexivity | ]. destruct (l =? 1)%Z; [reflexivity | ]. destruct (l =? 2)%Z; [reflexivity | ]. destruct (l =? 3)%Z; [reflexivity | ]. destruct (l =? 4)%Z; [reflexivity | ].
  f_equal. apply keepSum_ext. intros a b Ha Hb. rewrite (H a Ha), (H b Hb). reflexivity.
Qed.
