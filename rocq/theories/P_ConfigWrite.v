(** Property C136: writing a configuration and reading it back.  Vocabulary: S_Config.  Model: M_Config, M_ConfigWrite. *)
From Coq Require Import ZArith String List Bool Reals Lra Lia.
From Verif Require Import M_Config S_Config P_Config M_ConfigWrite.
Import ListNotations.
Open Scope string_scope.
Open Scope list_scope.

(** A copy made key by key in order is the dictionary itself, when no key is repeated. *)
Lemma assign_fresh {V} k (v : V) l : ~ In k (map fst l) -> assign k v l = l ++ [(k, v)].
Proof.
  induction l as [|[a x] l IH]; intros H; cbn in *; [reflexivity|]. destruct (String.eqb_spec k a) as [-> | n]; [tauto|]. rewrite IH by tauto. reflexivity.
Qed.
Lemma copy_all {V W} (g : V -> W) (l : list (string * V)) : NoDup (map fst l) ->
  fold_left (fun out k => match lookup k l with Some v => assign k (g v) out | None => out end) (map fst l) [] =
  map (fun kv => (fst kv, g (snd kv))) l.
Proof.
  intros ND.
  assert (G : forall r pre, l = pre ++ r -> fold_left (fun out k => match lookup k l with Some v => assign k (g v) out | None => out end) (map fst r)
     (map (fun kv => (fst kv, g (snd kv))) pre) = map (fun kv => (fst kv, g (snd kv))) l).
  { induction r as [|[k v] r IH]; intros pre E; cbn [map fold_left fst]; [rewrite E, app_nil_r; reflexivity|].
    assert (Np : ~ In k (map fst pre)).
    { rewrite E, map_app in ND. cbn [map fst] in ND. apply NoDup_remove_2 in ND. intros H. apply ND, in_or_app. now left. }
    assert (Lk : lookup k l = Some v).
    { rewrite E. clear -Np. induction pre as [|[a x] p IH]; cbn in *; [rewrite String.eqb_refl; reflexivity|].
      destruct (String.eqb_spec k a) as [-> | n]; [tauto|]. apply IH. tauto. }
    rewrite Lk, assign_fresh.
    - rewrite <- (IH (pre ++ [(k, v)])) by (rewrite <- app_assoc; exact E). rewrite map_app. reflexivity.
    - rewrite map_map. cbn [fst]. exact Np. }
  apply (G l []). reflexivity.
Qed.

Lemma nodup_strings l : (fix nd (l : list string) := match l with [] => true | h :: t => negb (existsb (String.eqb h) t) && nd t end) l = true -> NoDup l.
Proof.
  induction l as [|h t IH]; intros H; [constructor|]. apply andb_prop in H as [A B]. constructor; [|now apply IH].
  intros I. apply negb_true_iff in A. rewrite <- not_true_iff_false in A. apply A, existsb_exists. exists h. split; [exact I|apply String.eqb_refl].
Qed.
Lemma default_nodup : NoDup (map fst (entries defaultConfig)).
Proof. apply nodup_strings. reflexivity. Qed.
Lemma default_sections_nodup s d : getitem defaultConfig s = Some d -> NoDup (map fst (entries d)).
Proof.
  intros H. unfold getitem, defaultConfig in H. cbn [entries lookup] in H.
  repeat (destruct (String.eqb s _); [injection H as <-; apply nodup_strings; reflexivity | ]). discriminate.
Qed.

(** what the writer puts in the file: every section and setting, in order *)
Lemma written c : wellFormed c -> writeConfig c = map (fun sd => (fst sd, entries (snd sd))) (entries c).
Proof.
  intros (F & K & W). unfold writeConfig, getitem. rewrite (copy_all copySection) by (rewrite K; exact default_nodup).
  apply map_ext_in. intros [s d] I. cbn [fst snd]. f_equal. unfold copySection, getitem.
  assert (G : getitem c s = Some d).
  { assert (ND : NoDup (map fst (entries c))) by (rewrite K; exact default_nodup). unfold getitem. clear -ND I.
    induction (entries c) as [|[a x] l IH]; [easy|]. cbn in *. inversion ND as [|? ? Na Nl]; subst. destruct I as [E | I].
    - injection E as -> ->. now rewrite String.eqb_refl.
    - destruct (String.eqb_spec s a) as [-> | n]; [|auto]. exfalso. apply Na. apply in_map_iff. exists (a, d). auto. }
  destruct (W s d G) as (_ & d0 & G0 & Kd).
  rewrite (copy_all (fun v => v)) by (rewrite Kd; eapply default_sections_nodup; exact G0).
  rewrite (map_ext _ (fun kv => kv)) by (intros []; reflexivity). apply map_id.
Qed.

Lemma lastIn_nodup k kvs : NoDup (map fst kvs) -> forall acc, lastIn k kvs acc = match lookup k kvs with Some v => Some v | None => acc end.
Proof.
  induction kvs as [|[a v] r IH]; intros ND acc; [reflexivity|]. cbn in ND. inversion ND as [|? ? Na Nr]; subst. cbn [lastIn lookup].
  rewrite IH by exact Nr. destruct (String.eqb_spec k a) as [-> | n]; [|reflexivity].
  destruct (lookup a r) as [x|] eqn:L; [|reflexivity]. exfalso. apply Na, lookup_key. eauto.
Qed.
Lemma lastWritten_nodup s k (doc : list (string * list (string * value))) : NoDup (map fst doc) -> forall acc,
  lastWritten s k doc acc = match lookup s doc with Some kvs => lastIn k kvs acc | None => acc end.
Proof.
  induction doc as [|[a kvs] r IH]; intros ND acc; [reflexivity|]. cbn in ND. inversion ND as [|? ? Na Nr]; subst. cbn [lastWritten lookup].
  rewrite IH by exact Nr. destruct (String.eqb_spec s a) as [-> | n]; [|reflexivity].
  destruct (lookup a r) as [x|] eqn:L; [|reflexivity]. exfalso. apply Na, lookup_key. eauto.
Qed.
Lemma lookup_map {V W} (g : V -> W) s (l : list (string * V)) : lookup s (map (fun sd => (fst sd, g (snd sd))) l) = option_map g (lookup s l).
Proof. induction l as [|[a x] l IH]; cbn; [reflexivity|]. destruct (String.eqb s a); [reflexivity | exact IH]. Qed.

Lemma unknown_none c s k : wellFormed c -> ~ knownSetting s k -> cget c s k = None.
Proof.
  intros (F & K & W) H. unfold knownSetting, cget in *. destruct (getitem c s) as [d|] eqn:G; [|reflexivity].
  destruct (W s d G) as (_ & d0 & G0 & Kd). rewrite G0 in H. destruct (getitem d k) as [v|] eqn:E; [|reflexivity].
  exfalso. apply H. apply lookup_key. rewrite <- Kd. apply lookup_key. eauto.
Qed.

(** C136.  Whatever values a configuration has been given, the file written from it lists every section and
    every setting once; reading that file back gives every setting the same value (before validation). *)
Theorem C136_round_trip : forall c, wellFormed c ->
  (forall s k v, cget c s k = Some v <-> exists kvs, In (s, kvs) (writeConfig c) /\ In (k, v) kvs) /\
  exists c', readConfig (writeConfig c) = Some c' /\ wellFormed c' /\ forall s k, cget c' s k = cget c s k.
Proof.
  intros c Wf. assert (Wr := written c Wf). assert (Wf' := Wf). destruct Wf' as (F & K & W).
  assert (ND : NoDup (map fst (entries c))) by (rewrite K; exact default_nodup).
  assert (NDs : forall s d, getitem c s = Some d -> NoDup (map fst (entries d))).
  { intros s d G. destruct (W s d G) as (_ & d0 & G0 & Kd). rewrite Kd. eapply default_sections_nodup; exact G0. }
  assert (InL : forall V (l : list (string * V)) k v, NoDup (map fst l) -> (lookup k l = Some v <-> In (k, v) l)).
  { clear. induction l as [|[a x] l IH]; intros k v ND; cbn; [split; [discriminate|tauto]|]. cbn in ND. inversion ND as [|? ? Na Nl]; subst.
    destruct (String.eqb_spec k a) as [-> | n].
    - split; [intros E; left; congruence | intros [E | I]; [congruence|]]. exfalso. apply Na, in_map_iff. exists (a, v). auto.
    - rewrite IH by exact Nl. split; [auto | intros [E | I]; [congruence | exact I]]. }
  assert (A : forall s k v, cget c s k = Some v <-> exists kvs, In (s, kvs) (writeConfig c) /\ In (k, v) kvs).
  { intros s k v. rewrite Wr. unfold cget. split.
    - destruct (getitem c s) as [d|] eqn:G; [|discriminate]. intros H. exists (entries d). split.
      + apply in_map_iff. exists (s, d). split; [reflexivity|]. apply InL; assumption.
      + apply InL; [eapply NDs; exact G | exact H].
    - intros (kvs & I & Iv). apply in_map_iff in I as ([s' d] & E & I). cbn [fst snd] in E. injection E as -> <-.
      assert (G : getitem c s = Some d) by (apply InL; assumption). rewrite G. apply InL; [eapply NDs; exact G | exact Iv]. }
  split; [exact A|].
  destruct (proj2 (C58_input_file (writeConfig c))) as (c' & E & W' & L).
  { intros s kvs k v I Iv. assert (cget c s k = Some v) by (apply A; eauto).
    destruct (known_dec s k) as [Kn | Kn]; [exact Kn|]. rewrite (unknown_none c s k Wf Kn) in H. discriminate. }
  exists c'. split; [exact E|]. split; [exact W'|]. intros s k. rewrite L, Wr.
  rewrite lastWritten_nodup by (rewrite map_map; exact ND). rewrite lookup_map.
  destruct (known_dec s k) as [Kn | Kn].
  - destruct (wf_cget c s k Wf Kn) as [v Ev]. rewrite Ev. unfold cget in Ev. destruct (getitem c s) as [d|] eqn:G; [|discriminate].
    unfold getitem in G. rewrite G. cbn [option_map]. rewrite lastIn_nodup by (eapply NDs; exact G).
    unfold getitem in Ev. rewrite Ev. reflexivity.
  - rewrite (unknown_none _ s k wf_default Kn), (unknown_none c s k Wf Kn). destruct (lookup s (entries c)) as [d|] eqn:G; [|reflexivity].
    cbn [option_map]. rewrite lastIn_nodup by (eapply NDs; exact G).
    assert (X := unknown_none c s k Wf Kn). unfold cget, getitem in X. rewrite G in X. rewrite X. reflexivity.
Qed.

Lemma consistent_ext P c c' : (forall s k, opt c s k = opt c' s k) -> consistentSettings P c -> consistentSettings P c'.
Proof. intros H C. destruct C. constructor; rewrite <- ?H in *; assumption. Qed.

(** max(1, n) of the number of chemistry substeps *)
Lemma substeps parse c c' : wellFormed c -> validateConfig parse c = Some c' -> wellFormed c' /\
  atLeast1 (opt c "thermochem" "nChemSubSteps") = Some (opt c' "thermochem" "nChemSubSteps").
Proof.
  intros W. unfold validateConfig.
  assert (S1 : exists c1, (if isNone (opt c "io" "saveExtraVars") then cset c "io" "saveExtraVars" (VList []) else Some c) = Some c1 /\ wellFormed c1 /\
     forall s k, (s, k) <> ("io", "saveExtraVars") -> opt c1 s k = opt c s k).
  { destruct (isNone _); [ | exists c; auto]. destruct (cset_known c "io" "saveExtraVars" (VList []) W ltac:(known)) as (c1 & E & W1 & _ & O). eauto. }
  destruct S1 as (c1 & E1 & W1 & O1). rewrite E1. rewrite (O1 "timeIntegration" "dt") by discriminate.
  destruct (toFloat parse (opt c "timeIntegration" "dt")) as [dt|] eqn:Dt; [ | discriminate].
  destruct (cset_known c1 "timeIntegration" "dt" (VReal dt) W1 ltac:(known)) as (c2 & E2 & W2 & V2 & O2). rewrite E2. cbv zeta.
  repeat match goal with |- (if ?b then None else _) = Some c' -> _ => destruct b; [discriminate | ] end.
  destruct (atLeast1 (opt c2 "thermochem" "nChemSubSteps")) as [n|] eqn:A; [ | discriminate]. intros E3.
  destruct (opt_cset _ _ _ _ _ W2 E3) as (W3 & V3 & O3). split; [exact W3|]. rewrite O2, O1 in A by discriminate. congruence.
Qed.

(** A validated configuration survives the round trip: the file written from it is read and accepted again, with
    the same settings. *)
Theorem C136_validated : forall parse c0 c, wellFormed c0 -> validateConfig parse c0 = Some c ->
  exists c1 c2, readConfig (writeConfig c) = Some c1 /\ validateConfig parse c1 = Some c2 /\ forall s k, opt c2 s k = opt c s k.
Proof.
  intros parse c0 c W0 V. destruct (substeps parse c0 c W0 V) as [Wc Sc].
  destruct (C59_changes parse c0 c W0 V) as (Same & Sv & (r & Tr & Dt) & Ns & _).
  destruct (C136_round_trip c Wc) as (_ & c1 & E1 & W1 & L).
  assert (O : forall s k, opt c1 s k = opt c s k) by (intros s k; unfold opt; rewrite L; reflexivity).
  assert (Q : exists c2, validateConfig parse c1 = Some c2).
  { apply C59_rules; [exact W1|]. apply (consistent_ext _ c c1); [symmetry; apply O|].
    assert (C0 : consistentSettings (numberBy parse) c0) by (apply C59_rules; eauto).
    destruct C0. constructor; rewrite ?Same by discriminate; try assumption.
    - exists r. rewrite Dt. reflexivity.
    - destruct (opt c "thermochem" "nChemSubSteps"); tauto. }
  destruct Q as [c2 E2]. exists c1, c2. split; [exact E1|]. split; [exact E2|].
  destruct (C59_changes parse c1 c2 W1 E2) as (Same2 & Sv2 & (r2 & Tr2 & Dt2) & _ & _).
  destruct (substeps parse c1 c2 W1 E2) as [_ Sc2].
  assert (Dec : forall a b : string * string, a = b \/ a <> b) by (intros a b; destruct a as [p q], b as [p' q']; destruct (String.string_dec p p'), (String.string_dec q q'); subst; auto; right; congruence).
  intros s k.
  destruct (Dec (s, k) ("io", "saveExtraVars")) as [E | N1].
  { assert (s = "io" /\ k = "saveExtraVars") as [-> ->] by (split; congruence). rewrite Sv2, O, Sv. destruct (opt c0 "io" "saveExtraVars"); reflexivity. }
  destruct (Dec (s, k) ("timeIntegration", "dt")) as [E | N2].
  { assert (s = "timeIntegration" /\ k = "dt") as [-> ->] by (split; congruence). rewrite Dt2. rewrite O, Dt in Tr2. rewrite Dt. cbn [toFloat] in Tr2. congruence. }
  destruct (Dec (s, k) ("thermochem", "nChemSubSteps")) as [E | N3].
  { assert (s = "thermochem" /\ k = "nChemSubSteps") as [-> ->] by (split; congruence). rewrite O in Sc2.
    destruct (opt c "thermochem" "nChemSubSteps") as [ |b|z|x|t|l|x y z]; try contradiction; cbn [atLeast1] in Sc2.
    - rewrite Z.max_r in Sc2 by lia. congruence.
    - destruct (Rlt_dec 1 x); [congruence | contradiction]. }
  rewrite Same2 by assumption. apply O.
Qed.

(** A non-trivial case: a configuration with a changed section. *)
Example C136_ex : exists c, cset defaultConfig "simulation" "niter" (VInt 7) = Some c /\ wellFormed c /\
  In ("simulation", [("niter", VInt 7); ("restartFrom", VInt 0); ("checkNan", VBool false)]) (writeConfig c).
Proof.
  destruct (cset_known defaultConfig "simulation" "niter" (VInt 7) wf_default ltac:(known)) as (c & E & W & _). exists c. split; [exact E|]. split; [exact W|].
  assert (Q : c = match cset defaultConfig "simulation" "niter" (VInt 7) with Some c => c | None => c end) by (rewrite E; reflexivity).
  rewrite (written c W). rewrite Q. cbn. tauto.
Qed.
Print Assumptions C136_round_trip.
Print Assumptions C136_validated.
