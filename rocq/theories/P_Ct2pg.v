(** C119: the kernel that ct2pgChem.py writes computes the kinetics of the mechanism it was given. *)
From Coq Require Import Reals ZArith List Bool Lia Lra.
From Verif Require Import M_Halo S_Sum L_Sum L_Thermo L_Halo1 M_Ct2pg S_Ct2pg L_Ct2pg.
Import ListNotations.
Open Scope R_scope.

Lemma exec_app s p q v : exec s v (p ++ q) = match exec s v p with Some v' => exec s v' q | None => None end.
Proof. revert v. induction p as [|c p IH]; intros v; cbn [app exec]; [reflexivity|]. destruct (exec1 s v c); [apply IH|reflexivity]. Qed.
Lemma exec_set s v x e r p : eval s v e = Some r -> exec s v (Set_ x e :: p) = exec s (setVar v x r) p.
Proof. intros H. cbn [exec exec1]. now rewrite H. Qed.
Lemma exec_mul s v x e a r p : vars v x = Some a -> eval s v e = Some r -> exec s v (MulSet x e :: p) = exec s (setVar v x (a * r)) p.
Proof. intros H1 H2. cbn [exec exec1]. now rewrite H1, H2. Qed.

(** the variables a block of statements leaves alone *)
Definition same (v v' : env) : Prop :=
  vars v' VT = vars v VT /\ vars v' VTinv = vars v VTinv /\ vars v' VlogT = vars v VlogT /\ vars v' VprefRuT = vars v VprefRuT /\ vars v' VK_c = vars v VK_c /\
  (forall n, arrQ v' n = arrQ v n) /\ (forall n, arrD v' n = arrD v n).

Lemma falloff_ok s v ns T r fo : okReaction ns r -> okState ns [r] T (inCs s) -> ready T v -> vars v Vk_f = Some (arrheniusLaw (ctRate r) T) ->
  match ctType r with RArrhenius => True | _ => vars v VcTBC = Some (thirdBody ns (ctType r) (inCs s)) end ->
  falloffText (ctType r) = Some fo ->
  exists v', exec s v fo = Some v' /\ vars v' Vk_f = Some (forwardLaw ns r T (inCs s)) /\ same v v'.
Proof.
  intros (_ & _ & HokA & Hty) (HT & Hcs & Htroe) Hrd Hk Htb Hfo. pose proof (law_pos _ T HokA) as Hkp.
  unfold forwardLaw. cbv zeta. destruct (ctType r) as [|eff|eff low|eff low c|] eqn:Ety; cbn [falloffText] in Hfo.
  - injection Hfo as <-. exists v. cbn [exec]. split; [reflexivity|]. split; [exact Hk|]. unfold same. auto 10.
  - injection Hfo as <-. rewrite (exec_mul s v Vk_f (Var VcTBC) _ _ [] Hk Htb). cbn [exec]. eexists. split; [reflexivity|].
    split; [reflexivity|]. unfold same. cbn [setVar vars cvar_beq arrQ arrD]. auto 10.
  - injection Hfo as <-. destruct Hty as [He Hlow]. pose proof (law_pos _ T Hlow) as Hlp.
    set (k := arrheniusLaw (ctRate r) T) in *. set (M := thirdBody ns (RLindemann eff low) (inCs s)) in *.
    assert (HM : 0 <= M). { apply sumZ_nonneg. intros j Hj. apply Rmult_le_pos; [now apply He|now apply Hcs]. }
    rewrite (exec_set _ _ _ _ 1) by reflexivity.
    rewrite (exec_set _ _ _ _ (arrheniusLaw low T)) by (apply rateConst_ok; [assumption..|exact Hrd]).
    rewrite (exec_set _ _ _ _ (M * arrheniusLaw low T / k)).
    2:{ cbn [eval setVar vars cvar_beq]. rewrite Htb, Hk. cbn [bind2]. destruct (Req_EM_T k 0); [lra|reflexivity]. }
    set (Pr := M * arrheniusLaw low T / k).
    assert (HPr : 0 <= Pr). { unfold Pr. apply Rmult_le_pos; [apply Rmult_le_pos; lra|left; now apply Rinv_0_lt_compat]. }
    rewrite (exec_set _ _ _ _ (Pr / (1 + Pr))).
    2:{ cbn [eval setVar vars cvar_beq bind2]. destruct (Req_EM_T (1 + Pr) 0); [lra|reflexivity]. }
    rewrite (exec_mul _ _ _ _ k (Pr / (1 + Pr))) by (first [exact Hk|reflexivity]). cbn [exec]. eexists. split; [reflexivity|].
    split; [reflexivity|]. unfold same. cbn [setVar vars cvar_beq arrQ arrD]. auto 10.
  - destruct Hty as (He & Hlow & a & T3 & T1 & T2 & -> & N3 & N1). pose proof (law_pos _ T Hlow) as Hlp.
    destruct (Htroe r eff low [a; T3; T1; T2] (or_introl eq_refl) Ety) as (HF & HM & Hden).
    set (k := arrheniusLaw (ctRate r) T) in *. rewrite Ety in HM, Hden. set (M := thirdBody ns (RTroe eff low [a; T3; T1; T2]) (inCs s)) in *.
    unfold reducedPressure in Hden |- *. fold M k in Hden |- *. set (Pr := M * arrheniusLaw low T / k) in *.
    assert (HPr : 0 < Pr). { apply Rmult_lt_0_compat; [apply Rmult_lt_0_compat; lra|now apply Rinv_0_lt_compat]. }
    assert (HFc : exists fc, fcentText [a; T3; T1; T2] = Some fc /\ eval s v fc = Some (centring [a; T3; T1; T2] T)).
    { unfold fcentText. cbn [nth_error last centring]. destruct Hrd as (H1 & H2 & H3). destruct (Req_EM_T T2 0) as [E0|E0]; eexists; (split; [reflexivity|]);
        cbn [eval]; rewrite ?H1, ?H2; cbn [bind2]; destruct (Req_EM_T T3 0); [lra| |lra|]; destruct (Req_EM_T T1 0); try lra; cbn [bind2]; f_equal; [ring|].
      f_equal. f_equal. field. lra. }
    destruct HFc as (fc & Efc & Vfc). rewrite Efc in Hfo. injection Hfo as <-. set (F := centring [a; T3; T1; T2] T) in *.
    rewrite (exec_set _ _ _ _ F) by exact Vfc.
    rewrite (exec_set _ _ _ _ (troeC F)). 2:{ cbn [eval setVar vars cvar_beq]. destruct (Rlt_dec 0 F); [reflexivity|lra]. }
    rewrite (exec_set _ _ _ _ (troeN F)). 2:{ cbn [eval setVar vars cvar_beq]. destruct (Rlt_dec 0 F); [reflexivity|lra]. }
    rewrite (exec_set _ _ _ _ (arrheniusLaw low T)) by (apply rateConst_ok; [assumption..|exact Hrd]).
    rewrite (exec_set _ _ _ _ Pr).
    2:{ cbn [eval setVar vars cvar_beq]. rewrite Htb, Hk. cbn [bind2]. destruct (Req_EM_T k 0); [lra|reflexivity]. }
    rewrite (exec_set _ _ _ _ (troeA F Pr)). 2:{ cbn [eval setVar vars cvar_beq]. destruct (Rlt_dec 0 Pr); [reflexivity|lra]. }
    rewrite (exec_set _ _ _ _ (troeA F Pr / (troeN F - 14/100 * troeA F Pr))).
    2:{ cbn [eval setVar vars cvar_beq bind2]. destruct (Req_EM_T (troeN F - 14/100 * troeA F Pr) 0); [now elim Hden|reflexivity]. }
    set (f1 := troeA F Pr / (troeN F - 14/100 * troeA F Pr)).
    rewrite (exec_set _ _ _ _ (broadening F Pr)).
    2:{ cbn [eval setVar vars cvar_beq]. destruct (Rlt_dec 0 F); [|lra]. cbn [bind2]. pose proof (Rle_0_sqr f1) as Hsq. unfold Rsqr in Hsq.
        destruct (Req_EM_T (1 + f1 * f1) 0); [lra|]. cbn [bind2]. unfold powC. destruct (Rlt_dec 0 10); [|lra]. unfold broadening. fold f1.
        f_equal. f_equal. unfold lg. f_equal. ring. }
    rewrite (exec_set _ _ _ _ (Pr / (1 + Pr) * broadening F Pr)).
    2:{ cbn [eval setVar vars cvar_beq bind2]. destruct (Req_EM_T (1 + Pr) 0); [lra|]. reflexivity. }
    rewrite (exec_mul _ _ _ _ k (Pr / (1 + Pr) * broadening F Pr)) by (first [exact Hk|reflexivity]).
    cbn [exec]. eexists. split; [reflexivity|]. split; [reflexivity|]. unfold same. cbn [setVar vars cvar_beq arrQ arrD]. auto 10.
  - destruct Hty.
Qed.

(** the state between two reactions *)
Definition between (Ru T : R) (v : env) : Prop := ready T v /\ vars v VprefRuT = Some (101325 / (Ru * T)).

Lemma reaction_ok s ns Ru T r i v : 0 < Ru -> okReaction ns r -> okState ns [r] T (inCs s) -> between Ru T v ->
  exists p, genReaction ns i r = Some p /\ exists v', exec s v p = Some v' /\ between Ru T v' /\
    (forall m, arrQ v' m = if (m =? i)%Z then Some (progress ns Ru r T (inCs s) (inG s)) else arrQ v m) /\ (forall m, arrD v' m = arrD v m).
Proof.
  intros HR Hok Hst (Hrd & Hpr). pose proof Hst as (HT & Hcs & _). pose proof Hok as (Hnu & _ & HokA & Hty). unfold genReaction.
  set (k := arrheniusLaw (ctRate r) T). set (g := sumZ 0 ns (fun n => netCoef r n * inG s n)). set (K := equilibrium ns Ru r T (inG s)).
  set (v1 := setVar v Vk_f k). destruct (dG_ok s v1 ns r Hok) as (dg & Edg & Vdg). rewrite Edg.
  set (v2 := setVar v1 VdG g). set (v3 := setVar v2 VK_c K).
  assert (Htb : exists tb, tbcText ns (ctType r) = Some tb /\ exists v4, exec s v3 tb = Some v4 /\ same v3 v4 /\ vars v4 Vk_f = Some k /\
                match ctType r with RArrhenius => True | _ => vars v4 VcTBC = Some (thirdBody ns (ctType r) (inCs s)) end).
  { assert (He : ctType r = RArrhenius \/ okEff ns (effOf (ctType r))).
    { destruct (ctType r); [now left|right; exact Hty|right; apply Hty|right; apply Hty|destruct Hty]. }
    destruct He as [->|He].
    - exists []. split.
      + unfold tbcText. rewrite sumR_sumZ, sumZ_zero by reflexivity. destruct (Rlt_dec 0 0); [lra|reflexivity].
      + exists v3. split; [reflexivity|]. split; [unfold same; auto 10|]. split; [reflexivity|exact I].
    - destruct (tbc_ok s v3 ns (ctType r) He) as (e & Ee & Ve). exists [Set_ VcTBC e]. split; [exact Ee|].
      rewrite (exec_set _ _ _ _ _ _ Ve). cbn [exec]. eexists. split; [reflexivity|]. split; [unfold same; cbn [setVar vars cvar_beq arrQ arrD]; auto 10|].
      split; [reflexivity|]. destruct (ctType r); [exact I|reflexivity..]. }
  destruct Htb as (tb & Etb & v4 & Xtb & S4 & K4 & B4). rewrite Etb.
  assert (Hfo : exists fo, falloffText (ctType r) = Some fo).
  { destruct (ctType r) as [| | |eff low c|]; cbn [falloffText]; try (eexists; reflexivity); [|destruct Hty].
    destruct Hty as (_ & _ & a & T3 & T1 & T2 & -> & _). unfold fcentText. cbn [nth_error last]. destruct (Req_EM_T T2 0); eexists; reflexivity. }
  destruct Hfo as (fo & Efo). rewrite Efo. eexists. split; [reflexivity|].
  assert (R4 : ready T v4). { destruct S4 as (a & b & c & _). unfold ready. rewrite a, b, c. exact Hrd. }
  destruct (falloff_ok s v4 ns T r fo Hok Hst R4 K4 B4 Efo) as (v5 & Xfo & K5 & S5).
  cbn [app]. rewrite (exec_set _ _ _ _ k) by (apply rateConst_ok; assumption). fold v1.
  rewrite (exec_set _ _ _ _ g) by exact Vdg. fold v2.
  rewrite (exec_set _ _ _ _ K). 2:{ apply kc_ok with (g := g); [assumption|assumption|exact Hpr|reflexivity]. } fold v3.
  rewrite exec_app, Xtb, exec_app, Xfo.
  assert (KC5 : vars v5 VK_c = Some K). { destruct S5 as (_ & _ & _ & _ & E & _). rewrite E. destruct S4 as (_ & _ & _ & _ & E' & _). rewrite E'. reflexivity. }
  set (kf := forwardLaw ns r T (inCs s)) in *.
  rewrite (exec_set _ _ _ _ (kf * prodZ 0 ns (fun n => toThe (inCs s n) (ctF r n)))).
  2:{ apply products_ok; [exact Hcs|intros j Hj; now apply Hnu|exact K5]. }
  rewrite (exec_set _ _ _ _ (- kf / K * prodZ 0 ns (fun n => toThe (inCs s n) (ctB r n)))).
  2:{ apply products_ok; [exact Hcs|intros j Hj; now apply Hnu|]. cbn [eval setVar vars cvar_beq]. rewrite K5, KC5. cbn [bind2].
      pose proof (equil_pos ns Ru r T (inG s)) as Kp. fold K in Kp. destruct (Req_EM_T K 0); [lra|reflexivity]. }
  cbn [exec exec1].
  match goal with |- context [eval s ?w (if ctRev r then _ else _)] =>
    replace (eval s w (if ctRev r then Add (Var Vq_f) (Var Vq_b) else Var Vq_f)) with (Some (progress ns Ru r T (inCs s) (inG s))) end.
  2:{ unfold progress. fold kf K. cbv zeta. destruct (ctRev r); cbn [eval setVar vars cvar_beq bind2]; f_equal; [|ring].
      pose proof (equil_pos ns Ru r T (inG s)) as Kp. fold K in Kp. field. lra. }
  eexists. split; [reflexivity|]. cbn [vars arrQ arrD setVar].
  destruct S5 as (a5 & b5 & c5 & d5 & _ & q5 & e5). destruct S4 as (a4 & b4 & c4 & d4 & _ & q4 & e4). split; [|split].
  - unfold between, ready. cbn [vars setVar cvar_beq]. rewrite a5, a4, b5, b4, c5, c4, d5, d4. exact (conj Hrd Hpr).
  - intros m. destruct (m =? i)%Z; [reflexivity|]. now rewrite q5, q4.
  - intros m. now rewrite e5, e4.
Qed.

Lemma okState_cons ns r rs T cs : okState ns (r :: rs) T cs -> okState ns [r] T cs /\ okState ns rs T cs.
Proof.
  intros (HT & Hc & H). split; (split; [exact HT|split; [exact Hc|]]).
  - intros r' e low c [<-|[]] E. apply (H r e low c); [now left|exact E].
  - intros r' e low c Hin E. apply (H r' e low c); [now right|exact E].
Qed.
Lemma reactions_ok s ns Ru T rs : 0 < Ru -> (forall r, In r rs -> okReaction ns r) -> 0 < T -> okState ns rs T (inCs s) -> forall i v, between Ru T v ->
  exists p, genReactions ns i rs = Some p /\ exists v', exec s v p = Some v' /\ between Ru T v' /\
    (forall j r, nth_error rs j = Some r -> arrQ v' (i + Z.of_nat j)%Z = Some (progress ns Ru r T (inCs s) (inG s))) /\
    (forall m, (m < i)%Z -> arrQ v' m = arrQ v m) /\ (forall m, arrD v' m = arrD v m).
Proof.
  intros HR Hok HT. induction rs as [|r rs IH]; intros Hst i v Hb; cbn [genReactions].
  - exists []. split; [reflexivity|]. exists v. split; [reflexivity|]. split; [exact Hb|]. split; [intros [|j] r; discriminate|auto].
  - destruct (okState_cons _ _ _ _ _ Hst) as [Hst1 Hst2].
    destruct (reaction_ok s ns Ru T r i v HR (Hok r (or_introl eq_refl)) Hst1 Hb) as (p & Ep & v1 & X1 & B1 & Q1 & D1).
    destruct (IH (fun r' H => Hok r' (or_intror H)) Hst2 (i + 1)%Z v1 B1) as (p' & Ep' & v2 & X2 & B2 & Q2 & L2 & D2).
    rewrite Ep, Ep'. eexists. split; [reflexivity|]. exists v2. rewrite exec_app, X1. split; [exact X2|]. split; [exact B2|]. split; [|split].
    + intros [|j] r' Hj; cbn [nth_error] in Hj.
      * injection Hj as <-. rewrite Z.add_0_r, L2 by lia. rewrite Q1, Z.eqb_refl. reflexivity.
      * replace (i + Z.of_nat (S j))%Z with (i + 1 + Z.of_nat j)%Z by lia. now apply Q2.
    + intros m Hm. rewrite L2 by lia. rewrite Q1. destruct (m =? i)%Z eqn:E; [apply Z.eqb_eq in E; lia|reflexivity].
    + intros m. now rewrite D2, D1.
Qed.

Lemma sourceItems_ok s v ns Ru T n rs : forall i, (forall j r, nth_error rs j = Some r -> arrQ v (i + Z.of_nat j)%Z = Some (progress ns Ru r T (inCs s) (inG s))) ->
  itemsOk s v (sourceItems rs i n) (production ns Ru rs T (inCs s) (inG s) n).
Proof.
  induction rs as [|r rs IH]; intros i H; cbn [sourceItems production fold_right]; [constructor|].
  apply itemsOk_app.
  - change (ctB r n - ctF r n) with (netCoef r n). apply signedItem_ok. cbn [eval]. specialize (H O r eq_refl). now rewrite Z.add_0_r in H.
  - apply IH. intros j r' Hj. replace (i + 1 + Z.of_nat j)%Z with (i + Z.of_nat (S j))%Z by lia. now apply H.
Qed.
Lemma itemsOk_nil s v x : itemsOk s v [] x -> x = 0.
Proof. intros H. inversion H. reflexivity. Qed.
Lemma sources_ok s ns Ru T rs l : NoDup l -> forall v, (forall j r, nth_error rs j = Some r -> arrQ v (Z.of_nat j) = Some (progress ns Ru r T (inCs s) (inG s))) ->
  exists p, allSome (map (genSource rs) l) = Some p /\ exists v', exec s v p = Some v' /\ (forall m, arrQ v' m = arrQ v m) /\
    (forall n, In n l -> arrD v' n = Some (inMw s n * production ns Ru rs T (inCs s) (inG s) n)) /\ (forall n, ~ In n l -> arrD v' n = arrD v n).
Proof.
  induction l as [|n l IH]; intros Hnd v Hq; cbn [map allSome].
  - exists []. split; [reflexivity|]. exists v. split; [reflexivity|]. split; [reflexivity|]. split; [intros n []|reflexivity].
  - inversion Hnd as [|? ? Hni Hnd']; subst.
    pose proof (sourceItems_ok s v ns Ru T n rs 0%Z) as Hi. cbn [Z.add] in Hi. specialize (Hi Hq).
    assert (Hg : exists e, genSource rs n = Some (SetD n e) /\ eval s v e = Some (inMw s n * production ns Ru rs T (inCs s) (inG s) n)).
    { unfold genSource. destruct (sourceItems rs 0 n) as [|it its] eqn:Es.
      - eexists. split; [reflexivity|]. cbn [eval bind2]. now rewrite (itemsOk_nil _ _ _ Hi).
      - destruct (sumText_ok s v _ _ Hi) as (e & Ee & Ve); [discriminate|]. rewrite Ee. eexists. split; [reflexivity|]. cbn [eval]. now rewrite Ve. }
    destruct Hg as (e & Eg & Ve). rewrite Eg.
    set (v1 := mkEnv (vars v) (arrQ v) (fun m => if (m =? n)%Z then Some (inMw s n * production ns Ru rs T (inCs s) (inG s) n) else arrD v m)).
    destruct (IH Hnd' v1 Hq) as (p & Ep & v' & X & Q & Din & Dout). rewrite Ep. eexists. split; [reflexivity|]. exists v'.
    cbn [exec exec1]. rewrite Ve. fold v1. split; [exact X|]. split; [exact Q|]. split.
    + intros m [<-|Hm]; [|now apply Din]. rewrite Dout by exact Hni. unfold v1. cbn [arrD]. now rewrite Z.eqb_refl.
    + intros m Hm. cbn [In] in Hm. rewrite Dout by tauto. unfold v1. cbn [arrD]. destruct (m =? n)%Z eqn:E; [|reflexivity]. apply Z.eqb_eq in E. subst. tauto.
Qed.
Lemma zrange_nodup a b : NoDup (zrange a b).
Proof.
  unfold zrange. apply FinFun.Injective_map_NoDup; [|apply seq_NoDup]. intros x y H. lia.
Qed.

(** For every mechanism of supported reactions, and every temperature and concentrations at which its rate laws make sense, the utility
    succeeds, and the statements it writes run without a NaN and leave the rate of progress of every reaction in q and MW times the net
    production of every species in dYdt. *)
Theorem C119_generated_kinetics : forall ns Ru rs T cs gbs mw, 0 < Ru -> (forall r, In r rs -> okReaction ns r) -> okState ns rs T cs ->
  exists p, generate ns Ru rs = Some p /\ exists v, exec (mkIn cs gbs mw) (start T) p = Some v /\
    (forall j r, nth_error rs j = Some r -> arrQ v (Z.of_nat j) = Some (progress ns Ru r T cs gbs)) /\
    (forall n, (0 <= n < ns)%Z -> arrD v n = Some (mw n * production ns Ru rs T cs gbs n)).
Proof.
  intros ns Ru rs T cs gbs mw HR Hok Hst. pose proof Hst as (HT & _ & _). set (s := mkIn cs gbs mw). unfold generate.
  set (v0 := setVar (setVar (setVar (start T) VlogT (ln T)) VTinv (1 / T)) VprefRuT (101325 / (Ru * T))).
  assert (B0 : between Ru T v0) by (unfold between, ready; cbn; auto).
  destruct (reactions_ok s ns Ru T rs HR Hok HT Hst 0%Z v0 B0) as (p & Ep & v1 & X1 & _ & Q1 & _). rewrite Ep. cbn [Z.add] in Q1.
  destruct (sources_ok s ns Ru T rs (zrange 0 ns) (zrange_nodup 0 ns) v1 Q1) as (p' & Ep' & v2 & X2 & Q2 & D2 & _). rewrite Ep'.
  eexists. split; [reflexivity|]. exists v2. split; [|split].
  - cbn [app]. rewrite (exec_set _ _ _ _ (ln T)).
    2:{ cbn [eval start vars cvar_beq]. destruct (Rlt_dec 0 T); [reflexivity|lra]. }
    rewrite (exec_set _ _ _ _ (1 / T)). 2:{ cbn [eval start setVar vars cvar_beq bind2]. destruct (Req_EM_T T 0); [lra|reflexivity]. }
    rewrite (exec_set _ _ _ _ (101325 / (Ru * T))).
    2:{ cbn [eval start setVar vars cvar_beq bind2]. destruct (Req_EM_T (Ru * T) 0) as [E|_]; [|reflexivity]. pose proof (Rmult_lt_0_compat _ _ HR HT). lra. }
    fold v0. rewrite exec_app, X1. exact X2.
  - intros j r Hj. rewrite Q2. now apply Q1.
  - intros n Hn. apply D2. now apply zrange_in.
Qed.

(** Hence every generated kernel conserves mass if every reaction of the mechanism does, and any element that every reaction conserves. *)
Theorem C119_generated_conserves : forall ns Ru rs T cs gbs mw w, 0 < Ru -> (forall r, In r rs -> okReaction ns r) -> okState ns rs T cs ->
  (forall r, In r rs -> sumZ 0 ns (fun n => w n * netCoef r n) = 0) ->
  exists p v, generate ns Ru rs = Some p /\ exec (mkIn cs gbs mw) (start T) p = Some v /\
    exists d, (forall n, (0 <= n < ns)%Z -> arrD v n = Some (mw n * d n)) /\ sumZ 0 ns (fun n => w n * d n) = 0.
Proof.
  intros ns Ru rs T cs gbs mw w HR Hok Hst Hbal. destruct (C119_generated_kinetics ns Ru rs T cs gbs mw HR Hok Hst) as (p & Ep & v & X & _ & D).
  exists p, v. split; [exact Ep|]. split; [exact X|]. exists (production ns Ru rs T cs gbs). split; [exact D|].
  clear - Hbal. induction rs as [|r rs IH]; cbn [production fold_right].
  - apply sumZ_zero. intros; ring.
  - rewrite (sumZ_ext _ _ _ (fun n => progress ns Ru r T cs gbs * (w n * netCoef r n) + w n * production ns Ru rs T cs gbs n)) by (intros; unfold production; ring).
    rewrite sumZ_plus, sumZ_scale, (Hbal r) by now left. rewrite IH by (intros; apply Hbal; now right). ring.
Qed.

(** Not covered: a reaction in which nothing changes makes the utility raise IndexError. *)
Theorem C119_no_net_change_raises : forall ns Ru rs r, In r rs -> (forall n, (0 <= n < ns)%Z -> ctB r n = ctF r n) -> generate ns Ru rs = None.
Proof.
  intros ns Ru rs r Hin H. unfold generate. replace (genReactions ns 0 rs) with (@None (list stmt)); [reflexivity|]. symmetry.
  generalize 0%Z. induction rs as [|r' rs IH]; intros i; [destruct Hin|]. cbn [genReactions]. destruct Hin as [->|Hin].
  - unfold genReaction, dGText. replace (flat_map (fun j => signedItem (ctB r j - ctF r j) (Gbs j)) (zrange 0 ns)) with (@nil item); [reflexivity|].
    symmetry. assert (E : forall l, (forall j, In j l -> (0 <= j < ns)%Z) -> flat_map (fun j => signedItem (ctB r j - ctF r j) (Gbs j)) l = []).
    { induction l as [|j l IHl]; intros Hl; cbn [flat_map]; [reflexivity|]. rewrite IHl by (intros; apply Hl; now right).
      rewrite H by (apply Hl; now left). rewrite Rminus_diag_eq by reflexivity. unfold signedItem.
      destruct (Req_EM_T 0 1); [lra|]. destruct (Req_EM_T 0 (-1)); [lra|]. destruct (Req_EM_T 0 0); [reflexivity|lra]. }
    apply E. intros j Hj. now apply zrange_in.
  - rewrite IH by exact Hin. destruct (genReaction ns i r'); reflexivity.
Qed.

(** Not covered either, and violated: Cantera allows negative pre-exponential factors (duplicate reactions whose sum is fitted); the text
    exp(log(A)-(E*Tinv)) is then a NaN in every state, although the law has a value. *)
Theorem C119_negative_prefactor_refuted : forall ns Ru r rs T cs gbs mw, aA (ctRate r) < 0 -> aM (ctRate r) = 0 -> aE (ctRate r) <> 0 -> 0 < T -> 0 < Ru ->
  forall p, generate ns Ru (r :: rs) = Some p -> exec (mkIn cs gbs mw) (start T) p = None.
Proof.
  intros ns Ru r rs T cs gbs mw HA Hm HE HT HR p Hp. unfold generate in Hp. cbn [genReactions] in Hp. unfold genReaction in Hp.
  destruct (dGText ns r); [|discriminate]. destruct (tbcText ns (ctType r)); [|discriminate]. destruct (falloffText (ctType r)); [|discriminate].
  destruct (genReactions ns (0 + 1) rs); [|discriminate]. destruct (allSome _); [|discriminate]. injection Hp as <-. cbn [app].
  rewrite (exec_set _ _ _ _ (ln T)). 2:{ cbn [eval start vars cvar_beq]. destruct (Rlt_dec 0 T); [reflexivity|lra]. }
  rewrite (exec_set _ _ _ _ (1 / T)). 2:{ cbn [eval start setVar vars cvar_beq bind2]. destruct (Req_EM_T T 0); [lra|reflexivity]. }
  rewrite (exec_set _ _ _ _ (101325 / (Ru * T))).
  2:{ cbn [eval start setVar vars cvar_beq bind2]. destruct (Req_EM_T (Ru * T) 0) as [E|_]; [|reflexivity]. pose proof (Rmult_lt_0_compat _ _ HR HT). lra. }
  cbn [exec exec1]. unfold rateConstOf, rateConst. rewrite plain_val by (left; exists 0%Z; exact Hm). rewrite Hm.
  destruct (Req_EM_T 0 0); [|lra]. destruct (Req_EM_T (aE (ctRate r)) 0); [contradiction|]. cbn [eval]. destruct (Rlt_dec 0 (aA (ctRate r))); [lra|]. reflexivity.
Qed.

(** A third body for which no species counts: no cTBC is written, and k_f is multiplied by the third body of the reaction before. *)
Definition blank (f : Z -> R) (e : Z -> R) : ctReac := mkCt f (fun n => 1 - f n) (mkArrh 1 0 0) (RThree e) false.
Definition firstOnly (n : Z) : R := if (n =? 0)%Z then 1 else 0.
Ltac decs := repeat (cbn [signedItem sumText dropPlus readSum readMore app flat_map fold_left map allSome bind2 pyval]; match goal with
  | |- context [Req_EM_T ?a ?b] => destruct (Req_EM_T a b); [try (exfalso; lra)|try (exfalso; lra)]
  | |- context [Rlt_dec ?a ?b] => destruct (Rlt_dec a b); [try (exfalso; lra)|try (exfalso; lra)]
  | |- context [Rle_dec ?a ?b] => destruct (Rle_dec a b); [try (exfalso; lra)|try (exfalso; lra)]
  end).
Theorem C119_blank_third_body_refuted : exists ns Ru r1 r2 T cs gbs mw p v, 0 < Ru /\ 0 < T /\ (forall n, (0 <= n < ns)%Z -> 0 < cs n) /\
  generate ns Ru [r1; r2] = Some p /\ exec (mkIn cs gbs mw) (start T) p = Some v /\ thirdBody ns (ctType r2) cs = 0 /\
  progress ns Ru r2 T cs gbs = 0 /\ arrQ v 1 = Some 2.
Proof.
  exists 2%Z, 1, (blank firstOnly (fun _ => 1)), (blank firstOnly (fun _ => 0)), 1, (fun _ => 1), (fun _ => 0), (fun _ => 1).
  assert (HT0 : thirdBody 2 (ctType (blank firstOnly (fun _ => 0))) (fun _ => 1) = 0).
  { unfold thirdBody. apply sumZ_zero. intros i _. cbn [ctType blank effOf]. ring. }
  assert (HD : forall e, dGText 2 (blank firstOnly e) = Some (Add (Neg (Gbs 0)) (Gbs 1))).
  { intros e. unfold dGText. change (zrange 0 2) with [0%Z; 1%Z]. cbn [flat_map blank ctB ctF firstOnly Z.eqb Pos.eqb]. unfold signedItem. decs. reflexivity. }
  assert (HK : forall e, kcText 2 (blank firstOnly e) = Ex (Neg (Var VdG))).
  { intros e. unfold kcText, sumR. change (zrange 0 2) with [0%Z; 1%Z]. cbn [fold_left blank ctB ctF firstOnly Z.eqb Pos.eqb]. cbv zeta. decs; reflexivity. }
  assert (HR : rateConstOf (mkArrh 1 0 0) = Num 1).
  { unfold rateConstOf, rateConst. cbn [aA aM aE]. rewrite plain_val by (left; now exists 0%Z). decs. reflexivity. }
  assert (H1 : tbcText 2 (RThree (fun _ => 1)) = Some [Set_ VcTBC (Add (Cs 0) (Cs 1))]).
  { unfold tbcText, sumR. change (zrange 0 2) with [0%Z; 1%Z]. cbn [fold_left effOf flat_map]. cbv zeta. decs. reflexivity. }
  assert (H2 : tbcText 2 (RThree (fun _ => 0)) = Some []).
  { unfold tbcText, sumR. change (zrange 0 2) with [0%Z; 1%Z]. cbn [fold_left effOf flat_map]. cbv zeta. decs. reflexivity. }
  assert (HF : forall k, products 2 k firstOnly = Mul k (Cs 0)).
  { intros k. unfold products. change (zrange 0 2) with [0%Z; 1%Z]. cbn [fold_left firstOnly Z.eqb Pos.eqb]. decs; reflexivity. }
  assert (HB : forall k, products 2 k (fun n => 1 - firstOnly n) = Mul k (Cs 1)).
  { intros k. unfold products. change (zrange 0 2) with [0%Z; 1%Z]. cbn [fold_left firstOnly Z.eqb Pos.eqb]. decs; reflexivity. }
  assert (HS0 : genSource [blank firstOnly (fun _ => 1); blank firstOnly (fun _ => 0)] 0 = Some (SetD 0 (Mul (Mw 0) (Sub (Neg (Qx 0)) (Qx 1))))).
  { unfold genSource. cbn [sourceItems blank ctB ctF firstOnly Z.eqb Pos.eqb Z.add]. unfold signedItem. decs. reflexivity. }
  assert (HS1 : genSource [blank firstOnly (fun _ => 1); blank firstOnly (fun _ => 0)] 1 = Some (SetD 1 (Mul (Mw 1) (Add (Qx 0) (Qx 1))))).
  { unfold genSource. cbn [sourceItems blank ctB ctF firstOnly Z.eqb Pos.eqb Z.add]. unfold signedItem. decs. reflexivity. }
  unfold generate, genReactions, genReaction. rewrite !HD, !HK. cbn [blank ctType ctRate ctF ctB ctRev]. rewrite H1, H2, HR, !HF, !HB.
  change (zrange 0 2) with [0%Z; 1%Z]. cbn [map]. fold (blank firstOnly (fun _ => 1)) (blank firstOnly (fun _ => 0)). rewrite HS0, HS1. cbn [falloffText allSome app].
  match goal with |- exists p v, _ /\ _ /\ _ /\ Some ?l = Some p /\ _ => exists l end.
  assert (E1 : exp (- (- 0 + 0)) = 1) by (replace (- (- 0 + 0)) with 0 by ring; apply exp_0).
  match goal with |- exists v, _ /\ _ /\ _ /\ _ /\ exec ?s ?v0 ?p = Some v /\ _ => assert (X : exists v, exec s v0 p = Some v /\ arrQ v 1 = Some 2) end.
  { cbn [exec exec1 eval vars setVar start cvar_beq bind2 inCs inG inMw arrQ arrD Z.eqb Pos.eqb].
    repeat (match goal with
    | |- context [Req_EM_T ?a ?b] => destruct (Req_EM_T a b); [exfalso; pose proof (exp_pos (- (- 0 + 0))); lra|]
    | |- context [Rlt_dec ?a ?b] => destruct (Rlt_dec a b); [|exfalso; lra]
    end; cbn [exec exec1 eval vars setVar start cvar_beq bind2 inCs inG inMw arrQ arrD Z.eqb Pos.eqb Z.add]).
    eexists. split; [reflexivity|]. cbn [arrQ Z.eqb Pos.eqb]. f_equal. ring. }
  destruct X as (v & X & Q). exists v. split; [lra|]. split; [lra|]. split; [intros; lra|]. split; [reflexivity|]. split; [exact X|].
  split; [exact HT0|]. split; [|exact Q].
  unfold progress, forwardLaw. cbn [ctType ctRate ctRev blank]. cbv zeta. cbn [ctType blank] in HT0. rewrite HT0. ring.
Qed.

(** Non-vacuity: a mechanism with a plain, a three-body, a Lindemann and a Troe reaction, real exponents and coefficients, and a state. *)
Definition exF (n : Z) : R := if (n =? 0)%Z then 1 else 0.
Definition exB (n : Z) : R := if (n =? 0)%Z then 0 else 2.
Definition exRs : list ctReac :=
  [ mkCt exF exB (mkArrh 3 (-1) 0) RArrhenius true;
    mkCt exB exF (mkArrh 2 (1/2) 5) (RThree (fun n => if (n =? 0)%Z then 5/2 else 1)) true;
    mkCt exF exB (mkArrh 2 0 5) (RLindemann (fun _ => 1) (mkArrh 7 (-2) 1)) false;
    mkCt exF exB (mkArrh 2 0 5) (RTroe (fun _ => 1) (mkArrh 2 0 5) [0; 100; 30; 0]) true ].
Lemma half_plain : plainExponent (1/2).
Proof.
  right. intros z. assert (/ 10 ^ 16 < 1/2). { apply (Rle_lt_trans _ (/ 10)); [|lra]. apply Rinv_le_contravar; [lra|]. replace 10 with (10 ^ 1) at 1 by ring. apply Rle_pow; [lra|lia]. }
  destruct (Z_le_gt_dec z 0) as [L|G].
  - apply IZR_le in L. rewrite Rabs_right; lra.
  - assert (1 <= z)%Z as G' by lia. apply IZR_le in G'. rewrite Rabs_left1; lra.
Qed.
Example C119_nonvacuous : (forall r, In r exRs -> okReaction 2 r) /\ okState 2 exRs 300 (fun _ => 1/2) /\
  (forall r, In r exRs -> sumZ 0 2 (fun n => (if (n =? 0)%Z then 2 else 1) * netCoef r n) = 0).
Proof.
  assert (P : forall z, plainExponent (IZR z)) by (intros z; left; now exists z).
  assert (S2 : forall f, sumZ 0 2 f = f 0%Z + f 1%Z) by (intros f; unfold sumZ; change (zrange 0 2) with [0%Z; 1%Z]; cbn; ring).
  assert (E1 : okEff 2 (fun _ => 1)) by (split; [intros; lra|exists 0%Z; split; [lia|lra]]).
  split; [|split].
  - assert (C : forall n, (0 <= n < 2)%Z -> (0 <= exF n /\ 0 <= exB n) /\ exB n <> exF n).
    { intros n Hn. unfold exF, exB. destruct (n =? 0)%Z; (split; [split|]); lra. }
    intros r Hr. cbn [exRs In] in Hr. destruct Hr as [<-|[<-|[<-|[<-|[]]]]]; unfold okReaction; cbn [ctF ctB ctRate ctType];
      (split; [intros n Hn; destruct (C n Hn) as [[? ?] ?]; now split|]); (split; [exists 0%Z; split; [lia|destruct (C 0%Z ltac:(lia)) as [_ ?]; auto]|]).
    + split; [split; [cbn; lra|apply P]|exact I].
    + split; [split; [cbn; lra|apply half_plain]|]. split; [intros n _; destruct (n =? 0)%Z; lra|exists 1%Z; split; [lia|cbn; lra]].
    + split; [split; [cbn; lra|apply P]|]. split; [exact E1|]. split; [cbn; lra|apply P].
    + split; [split; [cbn; lra|apply P]|]. split; [exact E1|]. split; [split; [cbn; lra|apply P]|]. exists 0, 100, 30, 0. split; [reflexivity|split; lra].
  - split; [lra|]. split; [intros; lra|]. intros r e low c Hr Ht. cbn [exRs In] in Hr.
    destruct Hr as [<-|[<-|[<-|[<-|[]]]]]; cbn [ctType] in Ht; try discriminate. injection Ht as <- <- <-. cbn [ctType ctRate]. cbv zeta.
    assert (HM : thirdBody 2 (RTroe (fun _ : Z => 1) (mkArrh 2 0 5) [0; 100; 30; 0]) (fun _ => 1/2) = 1) by (unfold thirdBody; rewrite S2; cbn [effOf]; lra).
    assert (HF : centring [0; 100; 30; 0] 300 = exp (-3)).
    { unfold centring. destruct (Req_EM_T 0 0); [|lra]. rewrite Rmult_0_l. replace (Ropp 300 / 100) with (-3) by field. ring. }
    assert (HPr : reducedPressure 2 (RTroe (fun _ : Z => 1) (mkArrh 2 0 5) [0; 100; 30; 0]) (mkArrh 2 0 5) (mkArrh 2 0 5) 300 (fun _ => 1/2) = 1).
    { unfold reducedPressure. rewrite HM. assert (0 < arrheniusLaw (mkArrh 2 0 5) 300) by (apply law_pos; split; [cbn; lra|apply P]). field. lra. }
    rewrite HM, HF, HPr. split; [apply exp_pos|]. split; [lra|]. unfold troeA, troeN, troeC, lg. rewrite ln_exp, ln_1.
    assert (L : 0 < ln 10) by (rewrite <- ln_1; apply ln_increasing; lra). assert (Q : -3 / ln 10 < 0) by (pose proof (Rinv_0_lt_compat _ L); unfold Rdiv; lra).
    replace (0 / ln 10) with 0 by (field; lra). lra.
  - intros r Hr. rewrite S2. cbn [exRs In] in Hr. destruct Hr as [<-|[<-|[<-|[<-|[]]]]]; unfold netCoef; cbn [ctF ctB exF exB Z.eqb]; lra.
Qed.
Print Assumptions C119_generated_kinetics.
