(** C60, C61, C95, C96: the functions a configuration selects. *)
From Coq Require Import Reals ZArith String Ascii List Bool Lia Lra.
From Verif Require Import M_Topology M_Halo M_Grid M_Metrics M_Flux M_FluxKernels M_Subgrid M_Config S_Config L_Vec P_Config.
Import ListNotations.
Open Scope string_scope.

Lemma musclState_ext y st st' r : (forall m, (-2 <= m <= 1)%Z -> st m = st' m) -> musclState y st r = musclState y st' r.
Proof.
  intros H. unfold musclState. destruct r; unfold limR, limL, useR, useL; cbv zeta beta; rewrite ?(H (-2)%Z), ?(H (-1)%Z), ?(H 0%Z), ?(H 1%Z) by lia; reflexivity.
Qed.
Lemma dep_m2r : dependsOn (-2) 1 muscl2rusanov.
Proof. intros g st st' H l. unfold muscl2rusanov. rewrite !(musclState_ext _ st st' _ H). reflexivity. Qed.
Lemma dep_m2h : dependsOn (-2) 1 muscl2hllc.
Proof. intros g st st' H l. unfold muscl2hllc. rewrite !(musclState_ext _ st st' _ H). reflexivity. Qed.
Lemma dep_wider lo hi f : dependsOn (-1) 0 f -> (lo <= -1)%Z -> (0 <= hi)%Z -> dependsOn lo hi f.
Proof. intros D L Hh g st st' H l. apply D. intros m Hm. apply H. lia. Qed.

(** fluxes that agree on the faces of the block *)
Definition facesAgree (d : dims) (ng : Z) (F F' : fluxes) : Prop := forall i j k l, (ng <= i < ni d + ng - 1)%Z -> (ng <= j < nj d + ng - 1)%Z -> (ng <= k < nk d + ng - 1)%Z ->
  iF F i j k l = iF F' i j k l /\ iF F (i+1)%Z j k l = iF F' (i+1)%Z j k l /\ jF F i j k l = jF F' i j k l /\ jF F i (j+1)%Z k l = jF F' i (j+1)%Z k l /\
  kF F i j k l = kF F' i j k l /\ kF F i j (k+1)%Z l = kF F' i j (k+1)%Z l.
Lemma block_agree d ng f X A B : dependsOn (- ng) (ng - 1) f -> (forall i j k, existsCell d ng i j k -> A i j k = B i j k) -> (1 <= ng)%Z -> facesAgree d ng (blockFlux f X A) (blockFlux f X B).
Proof.
  intros D H G i j k l Hi Hj Hk. unfold blockFlux, existsCell in *. cbn [iF jF kF].
  repeat split; apply D; intros m Hm; unfold stI, stJ, stK; apply H; lia.
Qed.
Lemma diss_agree d phi X A B : (forall i j k, existsCell d 2 i j k -> A i j k = B i j k) -> facesAgree d 2 (scalarDissipation phi X A) (scalarDissipation phi X B).
Proof.
  intros H i j k l Hi Hj Hk. unfold scalarDissipation, existsCell in *. cbn [iF jF kF].
  repeat split; rewrite !H by lia; reflexivity.
Qed.
Lemma fluxFunction_agree d name phi X A B n : advFluxNG (VStr name) = Some n -> forall ng, (ng = 1 \/ ng = 2)%Z -> (n <= ng)%Z ->
  (forall i j k, existsCell d ng i j k -> A i j k = B i j k) ->
  match fluxFunction name phi X A, fluxFunction name phi X B with Some F, Some F' => facesAgree d ng F F' | None, None => False | _, _ => False end.
Proof.
  intros N ng Hg L H. unfold advFluxNG in N. cbn [lookup] in N. unfold fluxFunction.
  assert (W : forall f, dependsOn (-1) 0 f -> facesAgree d ng (blockFlux f X A) (blockFlux f X B)) by (intros f D; apply block_agree; [apply dep_wider; [exact D | lia | lia] | exact H | lia]).
  assert (W2 : forall f, (2 <= ng)%Z -> dependsOn (-2) 1 f -> facesAgree d ng (blockFlux f X A) (blockFlux f X B)) by (intros f G D; assert (ng = 2%Z) as -> by lia; apply block_agree; [exact D | exact H | lia]).
  repeat match type of N with (if String.eqb name ?s then _ else _) = _ => destruct (String.eqb_spec name s); [subst name | ] end; [ .. | discriminate]; cbn [String.eqb Ascii.eqb Bool.eqb];
    assert (n = 1 \/ n = 2)%Z as Hn by (injection N as <-; lia); assert (E := N); injection E as E; subst n.
  - apply W, dep_KEEP.
  - apply W, dep_KEEPpe.
  - apply W, dep_KEPaEC.
  - apply W, dep_central.
  - apply W2; [exact L | apply dep_fourth].
  - apply W, dep_hllc.
  - apply W, dep_rusanov.
  - apply W2; [exact L | apply dep_m2h].
  - apply W2; [exact L | apply dep_m2r].
  - assert (ng = 2%Z) as -> by lia. apply diss_agree. exact H.
Qed.
Lemma apply_agree a d ng ne J phi p F F' dQ dQ' : facesAgree d ng F F' -> (forall i j k l, dQ i j k l = dQ' i j k l) -> forall i j k l, applyFunction a d ng ne J phi p F dQ i j k l = applyFunction a d ng ne J phi p F' dQ' i j k l.
Proof.
  intros FA E i j k l. unfold applyFunction, applyFlux, applyHybridFlux, applyDissipationFlux.
  destruct (inCC d ng ne i j k l) eqn:C; [ | destruct a; rewrite C; apply E].
  assert (C' := C). unfold inCC in C'. rewrite !andb_true_iff in C'. destruct (FA i j k l ltac:(lia) ltac:(lia) ltac:(lia)) as (A1 & A2 & A3 & A4 & A5 & A6).
  destruct a; rewrite C; cbv zeta; rewrite A1, A2, A3, A4, A5, A6, E; reflexivity.
Qed.
Lemma advNG_range v n : advFluxNG v = Some n -> (n = 1 \/ n = 2)%Z.
Proof.
  destruct v; cbn [advFluxNG]; try discriminate; [intros H; injection H as <-; auto | ]. cbn [lookup].
  repeat match goal with |- (if ?b then _ else _) = _ -> _ => destruct b; [intros H; injection H as <-; auto | ] end. discriminate.
Qed.
Lemma subNG_range v n : subgridNG v = Some n -> (n = 1 \/ n = 2)%Z.
Proof.
  destruct v; cbn [subgridNG]; try discriminate; [intros H; injection H as <-; auto | ]. cbn [lookup].
  repeat match goal with |- (if ?b then _ else _) = _ -> _ => destruct b; [intros H; injection H as <-; auto | ] end. discriminate.
Qed.
Lemma some_inj {A} (x y : A) : Some x = Some y -> x = y. Proof. congruence. Qed.
Theorem C60_one_or_two : forall c ng, howManyNG c = Some ng -> (ng = 1 \/ ng = 2)%Z.
Proof.
  intros c ng. unfold howManyNG. destruct (advFluxNG (opt c "RHS" "primaryAdvFlux")) as [a|] eqn:E1; [ | discriminate]. destruct (advFluxNG (opt c "RHS" "secondaryAdvFlux")) as [b|] eqn:E2; [ | discriminate].
  destruct (subgridNG (opt c "RHS" "subgrid")) as [s|] eqn:E3; [ | discriminate]. intros H. apply some_inj in H. subst ng.
  apply advNG_range in E1. apply advNG_range in E2. apply subNG_range in E3. lia.
Qed.
Lemma getattr_str names v s : getattr names v = Some s -> v = VStr s /\ In s names.
Proof.
  destruct v; cbn [getattr]; try discriminate. destruct (existsb (String.eqb s0) names) eqn:E; [ | discriminate]. intros H. apply some_inj in H. subst s0.
  apply existsb_exists in E. destruct E as (x & I & X). apply String.eqb_eq in X. subst x. auto.
Qed.
(** everything selectFunctions decides *)
Record selectedBy (c : config) (s : selected) : Prop := {
  sb_ng : howManyNG c = Some (s_ng s);
  sb_primary : opt c "RHS" "primaryAdvFlux" = VStr (s_primary s) /\ In (s_primary s) advFluxNames;
  sb_shock : (opt c "RHS" "shockHandling" = VNone /\ s_applyPrimary s = ApplyFlux /\ s_applySecondary s = None /\ s_secondary s = None) \/
     (opt c "RHS" "shockHandling" = VStr "artificialDissipation" /\ s_applyPrimary s = ApplyFlux /\ s_applySecondary s = Some ApplyDissipationFlux) \/
     (opt c "RHS" "shockHandling" = VStr "hybrid" /\ s_applyPrimary s = ApplyHybridFlux /\ s_applySecondary s = Some ApplyHybridFlux);
  sb_secondary : match s_secondary s with None => opt c "RHS" "secondaryAdvFlux" = VNone | Some n => opt c "RHS" "secondaryAdvFlux" = VStr n /\ In n advFluxNames end;
  sb_eos : opt c "thermochem" "eos" = VStr (s_eos s) /\ In (s_eos s) thermoNames;
  sb_switch : match s_switch s with None => opt c "RHS" "switchAdvFlux" = VNone /\ s_phiComm s = false | Some n => opt c "RHS" "switchAdvFlux" = VStr n /\ In n switchNames /\ s_phiComm s = true end;
  sb_diffusion : s_diffusion s = truthy (opt c "RHS" "diffusion");
  sb_trans : match s_trans s with None => truthy (opt c "RHS" "diffusion") = false | Some n => truthy (opt c "RHS" "diffusion") = true /\ opt c "thermochem" "trans" = VStr n /\ In n transportNames end;
  sb_sgs : match s_sgs s with None => truthy (opt c "RHS" "diffusion") = false \/ opt c "RHS" "subgrid" = VNone
                            | Some n => truthy (opt c "RHS" "diffusion") = true /\ opt c "RHS" "subgrid" = VStr n /\ In n subgridNames end;
  sb_chem : if truthy (opt c "thermochem" "chemistry")
            then exists m, opt c "thermochem" "mechanism" = VStr m /\ In m chemistryNames /\
                 (if isStr (opt c "timeIntegration" "integrator") "strang" then s_expChem s = None /\ s_impChem s = Some m else s_expChem s = Some m /\ s_impChem s = None)
            else s_expChem s = None /\ s_impChem s = None }.
Lemma stepType_split v st : stepType v = Some st -> String.eqb st "split" = isStr v "strang".
Proof.
  destruct v; cbn [stepType]; try discriminate. cbn [lookup isStr].
  repeat match goal with |- (if String.eqb ?s ?t then _ else _) = _ -> _ => destruct (String.eqb_spec s t) as [-> | ?]; [intros H; apply some_inj in H; subst st; reflexivity | ] end. discriminate.
Qed.
Lemma selected_spec c s : selectFunctions c = Some s -> selectedBy c s.
Proof.
  unfold selectFunctions. destruct (stepType _) as [st|] eqn:ST; [ | discriminate]. destruct (howManyNG c) as [ng|] eqn:NG; [ | discriminate].
  destruct (getattr thermoNames _) as [eos|] eqn:EO; [ | discriminate]. cbv zeta.
  destruct (if truthy (opt c "RHS" "diffusion") then _ else _) as [tr|] eqn:TR; [ | discriminate].
  destruct (if isNone (opt c "RHS" "switchAdvFlux") then _ else _) as [sw|] eqn:SW; [ | discriminate].
  destruct (getattr advFluxNames (opt c "RHS" "primaryAdvFlux")) as [pr|] eqn:PR; [ | discriminate].
  destruct (if (isNone (opt c "RHS" "shockHandling") || _)%bool then _ else _) as [ap|] eqn:AP; [ | discriminate].
  destruct (if isNone (opt c "RHS" "secondaryAdvFlux") then _ else _) as [se|] eqn:SE; [ | discriminate].
  destruct (if truthy (opt c "RHS" "diffusion") then (if isNone (opt c "RHS" "subgrid") then _ else _) else _) as [sg|] eqn:SG; [ | discriminate].
  destruct (if truthy (opt c "thermochem" "chemistry") then _ else _) as [[ex im]|] eqn:CH; [ | discriminate].
  intros H. apply some_inj in H. subst s. constructor; cbn [s_ng s_primary s_applyPrimary s_applySecondary s_secondary s_eos s_switch s_phiComm s_diffusion s_trans s_sgs s_expChem s_impChem].
  - exact NG.
  - apply getattr_str. exact PR.
  - destruct (isNone (opt c "RHS" "shockHandling")) eqn:N.
    + left. cbn [orb] in AP. apply some_inj in AP. subst ap. apply isNone_iff in N. split; [exact N | ]. split; [reflexivity | ]. split; [reflexivity | ].
      destruct (isNone (opt c "RHS" "secondaryAdvFlux")); [apply some_inj in SE; congruence | discriminate].
    + right. cbn [orb] in AP. destruct (isStr (opt c "RHS" "shockHandling") "artificialDissipation") eqn:A.
      * left. apply some_inj in AP. subst ap. apply isStr_iff in A. auto.
      * right. destruct (isStr (opt c "RHS" "shockHandling") "hybrid") eqn:B; [ | discriminate]. apply some_inj in AP. subst ap. apply isStr_iff in B. auto.
  - destruct (isNone (opt c "RHS" "secondaryAdvFlux")) eqn:N; [apply some_inj in SE; subst se; apply isNone_iff; exact N | ].
    destruct (isNone (opt c "RHS" "shockHandling")); [discriminate | ]. destruct (getattr advFluxNames (opt c "RHS" "secondaryAdvFlux")) eqn:G; [ | discriminate]. apply some_inj in SE. subst se. apply getattr_str. exact G.
  - apply getattr_str. exact EO.
  - destruct (isNone (opt c "RHS" "switchAdvFlux")) eqn:N; [apply some_inj in SW; subst sw; split; [apply isNone_iff; exact N | reflexivity] | ].
    destruct (getattr switchNames _) eqn:G; [ | discriminate]. apply some_inj in SW. subst sw. destruct (getattr_str _ _ _ G). auto.
  - reflexivity.
  - destruct (truthy (opt c "RHS" "diffusion")); [ | apply some_inj in TR; subst tr; reflexivity]. destruct (getattr transportNames _) eqn:G; [ | discriminate]. apply some_inj in TR. subst tr. destruct (getattr_str _ _ _ G). auto.
  - destruct (truthy (opt c "RHS" "diffusion")); [ | apply some_inj in SG; subst sg; auto]. destruct (isNone (opt c "RHS" "subgrid")) eqn:N; [apply some_inj in SG; subst sg; right; apply isNone_iff; exact N | ].
    destruct (getattr subgridNames _) eqn:G; [ | discriminate]. apply some_inj in SG. subst sg. destruct (getattr_str _ _ _ G). auto.
  - rewrite <- (stepType_split _ _ ST). destruct (truthy (opt c "thermochem" "chemistry")); [ | apply some_inj in CH; injection CH as <- <-; auto].
    destruct (getattr chemistryNames _) as [m|] eqn:G; [ | discriminate]. destruct (getattr_str _ _ _ G) as [M1 M2]. exists m. split; [exact M1 | ]. split; [exact M2 | ].
    destruct (String.eqb st "split"); apply some_inj in CH; injection CH as <- <-; auto.
Qed.
Lemma advNG_of c s : selectFunctions c = Some s ->
  (exists n, advFluxNG (VStr (s_primary s)) = Some n /\ (n <= s_ng s)%Z) /\ (forall m, s_secondary s = Some m -> exists n, advFluxNG (VStr m) = Some n /\ (n <= s_ng s)%Z) /\
  (forall m, s_sgs s = Some m -> exists n, subgridNG (VStr m) = Some n /\ (n <= s_ng s)%Z).
Proof.
  intros E. destruct (selected_spec c s E) as [NG [PR _] _ SE _ _ _ _ SG _]. unfold howManyNG in NG. rewrite PR in NG.
  destruct (advFluxNG (VStr (s_primary s))) as [a|]; [ | discriminate]. destruct (advFluxNG (opt c "RHS" "secondaryAdvFlux")) as [b|] eqn:E2; [ | discriminate].
  destruct (subgridNG (opt c "RHS" "subgrid")) as [z|] eqn:E3; [ | discriminate]. apply some_inj in NG.
  split; [exists a; split; [reflexivity | lia] | ]. split; intros m Hm.
  - rewrite Hm in SE. destruct SE as [SE _]. rewrite SE in E2. exists b. split; [exact E2 | lia].
  - rewrite Hm in SG. destruct SG as (_ & SG & _). rewrite SG in E3. exists z. split; [exact E3 | lia].
Qed.
(** the advective right-hand side is computed, and two fields that agree on the cells the block stores give the same one: nothing outside is read *)
Theorem C60_advective_reads_existing_cells : forall c s, selectFunctions c = Some s -> forall d ne X J phi A B,
  (forall i j k, existsCell d (s_ng s) i j k -> A i j k = B i j k) ->
  exists a b, rhsAdvective s d ne X J phi A = Some a /\ rhsAdvective s d ne X J phi B = Some b /\ forall i j k l, a i j k l = b i j k l.
Proof.
  intros c s E d ne X J phi A B H. destruct (advNG_of c s E) as ((n & N & L) & S2 & _). assert (R : (s_ng s = 1 \/ s_ng s = 2)%Z) by (apply (C60_one_or_two c); apply selected_spec; exact E).
  unfold rhsAdvective. assert (F := fluxFunction_agree d (s_primary s) phi X A B n N (s_ng s) R L H).
  destruct (fluxFunction (s_primary s) phi X A) as [F1|]; [ | destruct (fluxFunction (s_primary s) phi X B); contradiction]. destruct (fluxFunction (s_primary s) phi X B) as [F1'|]; [ | contradiction].
  set (dA := applyFunction (s_applyPrimary s) d (s_ng s) ne J phi 1 F1 dQzero). set (dB := applyFunction (s_applyPrimary s) d (s_ng s) ne J phi 1 F1' dQzero).
  assert (D : forall i j k l, dA i j k l = dB i j k l) by (apply apply_agree; [exact F | reflexivity]).
  destruct (s_secondary s) as [m|] eqn:Sm.
  - destruct (S2 m eq_refl) as (n2 & N2 & L2). assert (G := fluxFunction_agree d m phi X A B n2 N2 (s_ng s) R L2 H).
    destruct (fluxFunction m phi X A) as [F2|]; [ | destruct (fluxFunction m phi X B); contradiction]. destruct (fluxFunction m phi X B) as [F2'|]; [ | contradiction].
    eexists; eexists; split; [reflexivity | split; [reflexivity | ]]. intros i j k l. destruct (s_applySecondary s); [apply apply_agree; assumption | apply D].
  - eexists; eexists; split; [reflexivity | split; [reflexivity | ]]. intros i j k l. destruct (s_applySecondary s); [apply apply_agree; assumption | apply D].
Qed.
(** likewise for the subgrid models, which run one layer into the halo *)
Theorem C60_subgrid_reads_existing_cells : forall c s, selectFunctions c = Some s -> s_sgs s = Some "mixedScaleModel" -> forall d ne J rho cp G qt q q',
  (forall i j k l, existsCell d (s_ng s) i j k -> q i j k l = q' i j k l) ->
  forall i j k l, mixedScaleModel d (s_ng s) ne J rho cp G q qt i j k l = mixedScaleModel d (s_ng s) ne J rho cp G q' qt i j k l.
Proof.
  intros c s E S d ne J rho cp G qt q q' H i j k l. destruct (advNG_of c s E) as (_ & _ & S3). destruct (S3 _ S) as (n & N & L). cbn in N. apply some_inj in N. subst n.
  assert (R : (s_ng s = 1 \/ s_ng s = 2)%Z) by (apply (C60_one_or_two c); apply selected_spec; exact E). assert (s_ng s = 2%Z) as -> by lia.
  unfold mixedScaleModel. destruct (inSgs d 2 i j k) eqn:I; [ | reflexivity]. unfold inSgs in I. rewrite !andb_true_iff in I.
  unfold existsCell in H. unfold mixedNu, filtered. cbv zeta. rewrite !H by lia. reflexivity.
Qed.
(** both subgrid models and all cells they write lie in the block *)
Theorem C60_subgrid_range : forall d ng i j k, (1 <= ng)%Z -> inSgs d ng i j k = true -> existsCell d ng i j k.
Proof. intros d ng i j k G I. unfold inSgs in I. rewrite !andb_true_iff in I. unfold existsCell. lia. Qed.

(** * C61 *)
Theorem C61_ausm_refuted : In "ausmPlusUp" advFluxNames /\ forall c, opt c "RHS" "primaryAdvFlux" = VStr "ausmPlusUp" -> selectFunctions c = None.
Proof.
  split; [cbn; tauto | ]. intros c H. destruct (selectFunctions c) as [s|] eqn:E; [ | reflexivity]. exfalso. assert (S := selected_spec c s E). destruct S as [NG _ _ _ _ _ _ _ _ _].
  unfold howManyNG in NG. rewrite H in NG. discriminate.
Qed.
Definition withPrimary (n : string) : option config := cset defaultConfig "RHS" "primaryAdvFlux" (VStr n).
Theorem C61_others_selectable : forall n, In n advFluxNames -> n <> "ausmPlusUp" ->
  exists c s, withPrimary n = Some c /\ validateConfig (fun _ => None) c <> None /\ selectFunctions c = Some s /\ s_primary s = n.
Proof.
  intros n H N. cbn [In advFluxNames] in H. repeat (destruct H as [<- | H]; [first [exfalso; apply N; reflexivity | eexists; eexists; split; [reflexivity | ]; split; [ | split; [reflexivity | reflexivity]]; cbn; discriminate] | ]). destruct H.
Qed.

(** * C95: what passes validation can be set up *)
(** every setting names something that exists *)
Record namesExist (c : config) : Prop := {
  ne_integrator : exists st, stepType (opt c "timeIntegration" "integrator") = Some st;
  ne_eos : exists n, opt c "thermochem" "eos" = VStr n /\ In n thermoNames;
  ne_primary : exists n, opt c "RHS" "primaryAdvFlux" = VStr n /\ In n advFluxNames /\ n <> "ausmPlusUp";
  ne_secondary : opt c "RHS" "secondaryAdvFlux" = VNone \/ exists n, opt c "RHS" "secondaryAdvFlux" = VStr n /\ In n advFluxNames /\ n <> "ausmPlusUp";
  ne_shock : opt c "RHS" "shockHandling" = VNone \/ opt c "RHS" "shockHandling" = VStr "artificialDissipation" \/ opt c "RHS" "shockHandling" = VStr "hybrid";
  ne_switch : opt c "RHS" "switchAdvFlux" = VNone \/ exists n, opt c "RHS" "switchAdvFlux" = VStr n /\ In n switchNames;
  ne_subgrid : opt c "RHS" "subgrid" = VNone \/ exists n, opt c "RHS" "subgrid" = VStr n /\ In n subgridNames;
  ne_trans : exists n, opt c "thermochem" "trans" = VStr n /\ In n transportNames;
  ne_mech : truthy (opt c "thermochem" "chemistry") = true -> exists n, opt c "thermochem" "mechanism" = VStr n /\ In n chemistryNames }.
Lemma getattr_in names n : In n names -> getattr names (VStr n) = Some n.
Proof. intros H. cbn. replace (existsb (String.eqb n) names) with true; [reflexivity | symmetry; apply existsb_exists; exists n; split; [exact H | apply String.eqb_refl]]. Qed.
Lemma advNG_some n : In n advFluxNames -> n <> "ausmPlusUp" -> exists z, advFluxNG (VStr n) = Some z.
Proof. intros H N. cbn [In advFluxNames] in H. repeat (destruct H as [<- | H]; [try (exfalso; apply N; reflexivity); eexists; reflexivity | ]). destruct H. Qed.
Theorem C95_can_be_built_partial : forall c, namesExist c -> (opt c "RHS" "secondaryAdvFlux" <> VNone -> opt c "RHS" "shockHandling" <> VNone) -> exists s, selectFunctions c = Some s.
Proof.
  intros c [[st ST] (eos & E1 & E2) (pr & P1 & P2 & P3) SE SH SW SG (tr & T1 & T2) CH] Hs. unfold selectFunctions.
  assert (NG : exists ng, howManyNG c = Some ng).
  { unfold howManyNG. rewrite P1. destruct (advNG_some pr P2 P3) as [a ->].
    assert (B : exists b, advFluxNG (opt c "RHS" "secondaryAdvFlux") = Some b) by (destruct SE as [-> | (n & -> & I & N)]; [eexists; reflexivity | apply advNG_some; assumption]). destruct B as [b ->].
    assert (Z : exists z, subgridNG (opt c "RHS" "subgrid") = Some z) by (destruct SG as [-> | (n & -> & I)]; [eexists; reflexivity | cbn [In subgridNames] in I; destruct I as [<- | [<- | []]]; eexists; reflexivity]). destruct Z as [z ->]. eauto. }
  destruct NG as [ng ->]. rewrite ST, E1, (getattr_in _ _ E2), P1, (getattr_in _ _ P2), T1, (getattr_in _ _ T2). cbv zeta.
  assert (S1 : exists x, (if isNone (opt c "RHS" "switchAdvFlux") then Some None else match getattr switchNames (opt c "RHS" "switchAdvFlux") with Some t => Some (Some t) | None => None end) = Some x)
    by (destruct SW as [-> | (n & -> & I)]; [eexists; reflexivity | cbn [isNone]; rewrite (getattr_in _ _ I); eexists; reflexivity]). destruct S1 as [x ->].
  assert (S2 : exists y, (if (isNone (opt c "RHS" "shockHandling") || isStr (opt c "RHS" "shockHandling") "artificialDissipation")%bool then Some ApplyFlux else if isStr (opt c "RHS" "shockHandling") "hybrid" then Some ApplyHybridFlux else None) = Some y)
    by (destruct SH as [-> | [-> | ->]]; eexists; reflexivity). destruct S2 as [y ->].
  assert (S3 : exists z, (if isNone (opt c "RHS" "secondaryAdvFlux") then Some None else if isNone (opt c "RHS" "shockHandling") then None else match getattr advFluxNames (opt c "RHS" "secondaryAdvFlux") with Some t => Some (Some t) | None => None end) = Some z).
  { destruct SE as [-> | (n & Q & I & N)]; [eexists; reflexivity | ]. assert (X : isNone (opt c "RHS" "shockHandling") = false) by (apply isNone_no, Hs; rewrite Q; discriminate).
    rewrite X, Q. cbn [isNone]. rewrite (getattr_in _ _ I). eexists; reflexivity. } destruct S3 as [z ->].
  assert (S4 : exists w, (if truthy (opt c "RHS" "diffusion") then (if isNone (opt c "RHS" "subgrid") then Some None else match getattr subgridNames (opt c "RHS" "subgrid") with Some t => Some (Some t) | None => None end) else Some None) = Some w).
  { destruct (truthy (opt c "RHS" "diffusion")); [ | eexists; reflexivity]. destruct SG as [-> | (n & -> & I)]; [eexists; reflexivity | cbn [isNone]; rewrite (getattr_in _ _ I); eexists; reflexivity]. } destruct S4 as [w ->].
  assert (S5 : exists p, (if truthy (opt c "thermochem" "chemistry") then match getattr chemistryNames (opt c "thermochem" "mechanism") with None => None
                 | Some m => if String.eqb st "split" then Some (None, Some m) else Some (Some m, None) end else Some (None, None)) = Some p).
  { destruct (truthy (opt c "thermochem" "chemistry")); [ | eexists; reflexivity]. destruct (CH eq_refl) as (n & -> & I). rewrite (getattr_in _ _ I). destruct (String.eqb st "split"); eexists; reflexivity. }
  destruct S5 as [[ex im] ->]. destruct (truthy (opt c "RHS" "diffusion")); eexists; reflexivity.
Qed.
(** ... but a configuration with a secondary flux and a switch and no shock handling passes validation and cannot be set up *)
Definition orphanSecondary : option config := readConfig [("RHS", [("secondaryAdvFlux", VStr "rusanov"); ("switchAdvFlux", VStr "vanLeer")])].
Theorem C95_validated_not_buildable_refuted : exists c c', orphanSecondary = Some c /\ validateConfig (fun _ => None) c = Some c' /\ namesExist c' /\ selectFunctions c' = None.
Proof.
  eexists; eexists. split; [reflexivity | ]. split; [cbn; reflexivity | ]. split; [ | reflexivity].
  constructor; cbn.
  - eexists; reflexivity.
  - eexists; split; [reflexivity | tauto].
  - eexists; split; [reflexivity | split; [tauto | discriminate]].
  - right. eexists; split; [reflexivity | split; [tauto | discriminate]].
  - auto.
  - right. eexists; split; [reflexivity | tauto].
  - auto.
  - eexists; split; [reflexivity | tauto].
  - discriminate.
Qed.

(** * C96: the right-hand side is the one the configuration asks for *)
Definition shockOf (v : value) : shock := if isStr v "hybrid" then Hybrid else if isStr v "artificialDissipation" then ArtificialDissipation else NoShock.
Theorem C96_rhs_matches_config : forall c s, selectFunctions c = Some s -> forall d ne X J phi cells F1,
  fluxFunction (s_primary s) phi X cells = Some F1 -> forall F2, match s_secondary s with None => F2 = None | Some m => F2 = fluxFunction m phi X cells end ->
  exists a, rhsAdvective s d ne X J phi cells = Some a /\ a = advectiveRHS (shockOf (opt c "RHS" "shockHandling")) d (s_ng s) ne J phi F1 F2 /\
  opt c "RHS" "primaryAdvFlux" = VStr (s_primary s) /\ opt c "RHS" "secondaryAdvFlux" = match s_secondary s with None => VNone | Some m => VStr m end.
Proof.
  intros c s E d ne X J phi cells F1 HF F2 H2. assert (S := selected_spec c s E). destruct S as [NG [PR _] SH SE _ _ _ _ _ _].
  destruct (advNG_of c s E) as (_ & S2 & _). unfold rhsAdvective. rewrite HF.
  assert (SE' : opt c "RHS" "secondaryAdvFlux" = match s_secondary s with None => VNone | Some m => VStr m end) by (destruct (s_secondary s); tauto).
  assert (X2 : exists F, (match s_secondary s with None => Some F1 | Some n => fluxFunction n phi X cells end) = Some F /\ F = match F2 with Some F => F | None => F1 end).
  { destruct (s_secondary s) as [m|]; [ | subst F2; eauto]. destruct (S2 m eq_refl) as (n & N & _).
    assert (Sm : exists F, fluxFunction m phi X cells = Some F).
    { unfold advFluxNG in N. cbn [lookup] in N. unfold fluxFunction. repeat match type of N with (if String.eqb m ?t then _ else _) = _ => destruct (String.eqb_spec m t); [subst m; eexists; reflexivity | ] end. discriminate. }
    destruct Sm as [F Sm]. rewrite Sm in H2. subst F2. eauto. }
  destruct X2 as (F & -> & EF). subst F. eexists. split; [reflexivity | ]. split; [ | auto].
  unfold advectiveRHS, shockOf. destruct SH as [(-> & -> & -> & _) | [(-> & -> & ->) | (-> & -> & ->)]]; reflexivity.
Qed.
Example C96_nonvacuous : exists c s, readConfig [("RHS", [("shockHandling", VStr "hybrid"); ("primaryAdvFlux", VStr "fourthOrderKEEP"); ("secondaryAdvFlux", VStr "muscl2hllc"); ("switchAdvFlux", VStr "vanLeer");
      ("diffusion", VBool true); ("subgrid", VStr "mixedScaleModel")])] = Some c /\ selectFunctions c = Some s /\ s_ng s = 2%Z /\ s_sgs s = Some "mixedScaleModel".
Proof. eexists; eexists; split; [reflexivity | split; [reflexivity | split; reflexivity]]. Qed.
Print Assumptions C58_input_file.
Print Assumptions C59_rules.
Print Assumptions C60_advective_reads_existing_cells.
Print Assumptions C96_rhs_matches_config.
