(** Properties C43 (maccormack), C46, C47, C90, C92: times handed to the physics, and the dual-time levels. *)
From Coq Require Import Reals ZArith List Bool String Lra Lia FunctionalExtensionality.
From Verif Require Import M_Time S_Time P_Time P_Time2.
Import ListNotations.
Open Scope R_scope.

(** * A recording physics.  pA is (time at which the boundary data in the halos were taken, list of (boundary-data time,
    stage time) seen by each RHS evaluation, oldest first); the right-hand side is g of the two times. *)
Definition recEnv (g : R -> R -> R) : env unit (R * list (R * R)) :=
  mkEnv (fun t p => (fun _ => g (fst (pA p)) t, mkPhys (pQ p) (pq p) (fst (pA p), snd (pA p) ++ [(fst (pA p), t)])))
        (fun t p => mkPhys (pQ p) (pq p) (t, snd (pA p)))
        (fun t p => mkPhys (pQ p) (pq p) (t, snd (pA p)))
        (fun dt p => p) (fun p _ => 1) (fun dt p dtau d => d).
Definition allIn : unit -> bool := fun _ => true.
(** the RHS evaluations of one step *)
Definition seen (name : string) (b t dt : R) : list (R * R) :=
  if String.eqb name "rk1" then [(b, t)]
  else if String.eqb name "rk2" then [(b, t); (t, t + dt)]
  else if String.eqb name "maccormack" then [(b, t); (t, t)]
  else if String.eqb name "rk3" then [(b, t); (t, t + dt); (t + dt, t + dt / 2)]
  else if String.eqb name "rk34" then [(b, t); (t, t + dt / 2); (t + dt / 2, t + dt); (t + dt, t + dt / 2)]
  else if String.eqb name "rk4" then [(b, t); (t, t + dt / 2); (t + dt / 2, t + dt / 2); (t + dt / 2, t + dt)]
  else if String.eqb name "strang" then
    [(b, t); (t, t + dt / 2); (t + dt / 2, t + dt / 2 / 2); (t + dt / 2 / 2, t); (t, t + dt / 2); (t + dt / 2, t + dt / 2 / 2)]
  else [].
(** time of the boundary data a step leaves in the halos for the next one *)
Definition leaves (name : string) (t dt : R) : R :=
  if String.eqb name "rk1" then t else if String.eqb name "rk2" then t + dt else if String.eqb name "maccormack" then t
  else if String.eqb name "rk3" then t + dt / 2 else if String.eqb name "rk34" then t + dt / 2 else if String.eqb name "rk4" then t + dt
  else t + dt / 2 / 2.
(** stage times of the documented method: nodes c_i = sum_j a_ij *)
Definition stageTimes (tb : tableau) (t dt : R) : list R := map (fun c => t + dt * c) (nodes tb).

Lemma record_step g name step dt s : getIntegrator allIn (recEnv g) name = Some step -> name <> "dualTime"%string ->
  pA (ph (step dt s)) = (leaves name (tme s) dt, snd (pA (ph s)) ++ seen name (fst (pA (ph s))) (tme s) dt).
Proof.
  unfold getIntegrator, seen, leaves. intros H N.
  destruct (String.eqb_spec name "rk1"); [injection H as <-; reflexivity|].
  destruct (String.eqb_spec name "rk2"); [injection H as <-|].
  { cbn -[Rplus Rdiv Rmult]. rewrite <- !app_assoc. reflexivity. }
  destruct (String.eqb_spec name "maccormack"); [injection H as <-|].
  { cbn -[Rplus Rdiv Rmult]. rewrite <- !app_assoc. reflexivity. }
  destruct (String.eqb_spec name "rk3"); [injection H as <-|].
  { cbn -[Rplus Rdiv Rmult]. rewrite <- !app_assoc. reflexivity. }
  destruct (String.eqb_spec name "rk34"); [injection H as <-|].
  { cbn -[Rplus Rdiv Rmult]. rewrite <- !app_assoc. reflexivity. }
  destruct (String.eqb_spec name "rk4"); [injection H as <-|].
  { cbn -[Rplus Rdiv Rmult]. rewrite <- !app_assoc. reflexivity. }
  destruct (String.eqb_spec name "strang"); [injection H as <-|].
  { cbn -[Rplus Rdiv Rmult]. rewrite <- !app_assoc. reflexivity. }
  destruct (String.eqb_spec name "dualTime"); [contradiction|discriminate].
Qed.

(** C90.  The (boundary-data time, stage time) pairs every step of every explicit or split integrator hands to the right-hand side. *)
Theorem C90_times : forall g name step dt s, getIntegrator allIn (recEnv g) name = Some step -> name <> "dualTime"%string ->
  snd (pA (ph (step dt s))) = snd (pA (ph s)) ++ seen name (fst (pA (ph s))) (tme s) dt.
Proof. intros g name step dt s G N. rewrite (record_step g name step dt s G N). reflexivity. Qed.
(** the stage times are those of the documented method *)
Theorem C90_stageTimes : forall name tab b t dt, documented name = Some tab -> name <> "maccormack"%string -> map snd (seen name b t dt) = stageTimes tab t dt.
Proof.
  intros name tab b t dt D M. apply documented_cases in D.
  destruct D as [(-> & ->)|[(-> & ->)|[(-> & ->)|[(-> & ->)|[(-> & ->)|(-> & ->)]]]]]; try contradiction; unfold stageTimes, nodes;
    cbn -[Rplus Rdiv Rmult]; repeat (apply (f_equal2 cons); [field|]); reflexivity.
Qed.
(** but the boundary data are not: in any two consecutive steps of size dt <> 0 with any explicit or split integrator some right-hand
    side is evaluated with boundary data of another time than its own *)
Theorem C90_boundary_refuted : forall g name step dt s, getIntegrator allIn (recEnv g) name = Some step -> name <> "dualTime"%string -> dt <> 0 ->
  fst (pA (ph s)) = tme s -> snd (pA (ph s)) = [] -> exists b t, In (b, t) (snd (pA (ph (run step [dt; dt] s)))) /\ b <> t.
Proof.
  intros g name step dt s G N H0 B L. cbn [run]. rewrite (C90_times g name step dt (step dt s) G N).
  rewrite (record_step g name step dt s G N). cbn [fst snd]. rewrite L, B. cbn [app]. destruct (step_count allIn (recEnv g) name step dt s G) as (_ & -> & _).
  set (t := tme s). unfold getIntegrator in G. unfold seen, leaves.
  destruct (String.eqb_spec name "rk1"); [exists t, (t + dt); cbn; split; [auto 10|lra]|].
  destruct (String.eqb_spec name "rk2"); [exists t, (t + dt); cbn; split; [auto 10|lra]|].
  destruct (String.eqb_spec name "maccormack"); [exists t, (t + dt); cbn; split; [auto 10|lra]|].
  destruct (String.eqb_spec name "rk3"); [exists t, (t + dt); cbn; split; [auto 10|lra]|].
  destruct (String.eqb_spec name "rk34"); [exists (t + dt), (t + dt / 2); cbn; split; [auto 10|lra]|].
  destruct (String.eqb_spec name "rk4"); [exists t, (t + dt / 2); cbn; split; [auto 10|lra]|].
  destruct (String.eqb_spec name "strang"); [exists t, (t + dt / 2); cbn; split; [auto 10|lra]|].
  destruct (String.eqb_spec name "dualTime"); [contradiction|discriminate].
Qed.
Lemma polyInt_t a b : polyInt [0; 1] 0 a b = (b * b - a * a) / 2.
Proof. cbn [polyInt pow]. simpl INR. field. Qed.
(** consequence: a boundary forcing linear in time (dy/dt = t through the halo data) is not integrated exactly by any of the methods of
    order two and above: the global error of time-dependent boundary conditions is first order *)
Theorem C90_order_refuted : forall name step dt s, In name ["rk2"; "maccormack"; "rk3"; "rk34"; "rk4"]%string ->
  getIntegrator allIn (recEnv (fun b _ => b)) name = Some step -> dt <> 0 -> fst (pA (ph s)) = tme s ->
  Q (step dt s) tt <> Q s tt + polyInt [0; 1] 0 (tme s) (tme s + dt).
Proof.
  intros name step dt s I G H0 B. assert (Hd: dt * dt <> 0) by (intros H; apply Rmult_integral in H; tauto).
  rewrite polyInt_t. cbn [In] in I. unfold Q. destruct I as [<-|[<-|[<-|[<-|[<-|[]]]]]]; injection G as <-; cbn -[Rplus Rdiv Rmult pow]; unfold ApEQxB, AEQB, upd; cbn -[Rplus Rdiv Rmult pow];
    rewrite ?B; unfold Q; intros H; apply Hd; lra.
Qed.

(** C43 for maccormack on a time-dependent source: the corrector re-uses the time of the predictor, so dy/dt = t is integrated with a
    first-order error. *)
Theorem C43_maccormack_refuted : exists (E : env unit (R * list (R * R))) step, getIntegrator allIn E "maccormack" = Some step /\
  keepsInterior allIn E /\ governedBy allIn E (fun t _ _ => t) /\
  forall dt s, Q (step dt s) tt = Q s tt + polyInt [0; 1] 0 (tme s) (tme s + dt) - dt * dt / 2.
Proof.
  exists (recEnv (fun _ t => t)). eexists. split; [reflexivity|]. repeat split.
  intros dt s. rewrite polyInt_t. unfold Q. cbn -[Rplus Rdiv Rmult pow]. unfold ApEQxB, AEQB, upd. cbn -[Rplus Rdiv Rmult pow]. unfold Q. cbn [pow]. field.
Qed.

(** C46.  The two half steps of strang both start at the old time (the boundary conditions of the second half are half a step behind), and
    a source linear in time is integrated with a first-order error. *)
Theorem C46_halves_refuted : forall g dt s, dt <> 0 -> fst (pA (ph s)) = tme s -> snd (pA (ph s)) = [] ->
  map snd (snd (pA (ph (strang_step allIn (recEnv g) dt s)))) = [tme s; tme s + dt/2; tme s + dt/2/2; tme s; tme s + dt/2; tme s + dt/2/2].
Proof. intros g dt s H B L. rewrite (C90_times g "strang" _ dt s eq_refl) by discriminate. rewrite L. reflexivity. Qed.
Theorem C46_source_refuted : forall dt s, Q (strang_step allIn (recEnv (fun _ t => t)) dt s) tt = Q s tt + polyInt [0; 1] 0 (tme s) (tme s + dt) - dt * dt / 4.
Proof. intros dt s. rewrite polyInt_t. unfold Q. cbn -[Rplus Rdiv Rmult pow]. unfold upd. cbn -[Rplus Rdiv Rmult pow]. unfold Q. cbn [pow]. field. Qed.

Section StrangDual.
Context {X A : Type}.
Variable inner : X -> bool.
Variable E : env X A.
(** for autonomous right-hand sides a strang step is: SSP(3,3) over dt/2, the reaction step over dt, SSP(3,3) over dt/2 *)
Theorem C46_autonomous : forall f g, keepsInterior inner E -> governedBy inner E f -> autonomous f ->
  (forall dt p, sameInside inner (pQ (stiff E dt p)) (g dt (pQ p))) -> (forall dt y z, sameInside inner y z -> sameInside inner (g dt y) (g dt z)) ->
  forall dt s tab, documented "rk3" = Some tab -> consistent E s ->
  sameInside inner (Q (strang_step inner E dt s)) (rungeKutta tab f (tme s) (dt/2) (g dt (rungeKutta tab f (tme s) (dt/2) (Q s)))) /\
  consistent E (strang_step inner E dt s).
Proof.
  intros f g HK HF HA HS HG dt s tab [= <-] C. unfold strang_step. cbv zeta.
  destruct (rk3_tab inner E HK f HF (dt/2) s C) as (Q1 & C1). destruct (stages3_counters inner E (dt/2) s) as (T1 & _).
  set (s1 := rk3_stages inner E (dt / 2) s) in *. clearbody s1. set (s2 := consistify E _).
  assert (Q2: sameInside inner (Q s2) (g dt (Q s1))).
  { intros x Hx. unfold s2. rewrite (con_Q inner E HK) by auto. unfold Q at 1. cbn [ph setPh]. now apply HS. }
  assert (C2: consistent E s2) by apply con_consistent. assert (T2: tme s2 = tme s) by exact T1. clearbody s2.
  destruct (rk3_tab inner E HK f HF (dt/2) s2 C2) as (Q3 & C3). set (s3 := rk3_stages inner E (dt / 2) s2) in *. clearbody s3. split.
  - change (sameInside inner (Q s3) (rungeKutta (mkTab [[]; [1]; [1/4; 1/4]] [1/6; 1/6; 2/3]) f (tme s) (dt / 2)
      (g dt (rungeKutta (mkTab [[]; [1]; [1/4; 1/4]] [1/6; 1/6; 2/3]) f (tme s) (dt / 2) (Q s))))).
    eapply same_trans; [apply Q3|]. rewrite T2. apply rk_cong; [apply HF|]. eapply same_trans; [apply Q2|]. now apply HG.
  - destruct C3 as (t0 & p & C3). exists t0, p. exact C3.
Qed.

(** * C47 *)
Lemma RHS_levels (s : solver X A) : aQn (RHS E s) = aQn s /\ aQnm1 (RHS E s) = aQnm1 s.
Proof. unfold RHS. destruct rhs. auto. Qed.
Lemma stage_levels (F : solver X A -> solver X A) dt s : (forall s, aQn (F s) = aQn s /\ aQnm1 (F s) = aQnm1 s) -> forall t,
  let r := consistifyP E (F (invertDQ inner E dt (dQdt inner dt (RHS E (setTitme t s))))) in aQn r = aQn s /\ aQnm1 r = aQnm1 s.
Proof.
  intros HF t. cbv zeta. set (r := RHS E (setTitme t s)). assert (R: aQn r = aQn s /\ aQnm1 r = aQnm1 s) by (apply (RHS_levels (setTitme t s))).
  change (aQn (F (invertDQ inner E dt (dQdt inner dt r))) = aQn s /\ aQnm1 (F (invertDQ inner E dt (dQdt inner dt r))) = aQnm1 s).
  destruct (HF (invertDQ inner E dt (dQdt inner dt r))) as (-> & ->). exact R.
Qed.
Lemma dualIter_levels dt s : aQn (dualIter inner E dt s) = aQn s /\ aQnm1 (dualIter inner E dt s) = aQnm1 s.
Proof.
  unfold dualIter. cbv zeta. set (s0 := setDtau _ s). set (s1 := consistifyP E (DTrk3s1 inner _)). set (s2 := consistifyP E (DTrk3s2 inner _)).
  assert (H1: aQn s1 = aQn s0 /\ aQnm1 s1 = aQnm1 s0) by (apply stage_levels; auto).
  assert (H2: aQn s2 = aQn s1 /\ aQnm1 s2 = aQnm1 s1) by (apply stage_levels; auto).
  destruct (stage_levels (DTrk3s3 inner) dt s2 (fun _ => conj eq_refl eq_refl) (tme s2 + dt / 2)) as (-> & ->).
  destruct H2 as (-> & ->), H1 as (-> & ->). auto.
Qed.
Lemma iter_levels dt n : forall s, aQn (iterate n (dualIter inner E dt) s) = aQn s /\ aQnm1 (iterate n (dualIter inner E dt) s) = aQnm1 s.
Proof. induction n as [|n IH]; intros s; [auto|]. cbn [iterate]. destruct (IH (dualIter inner E dt s)) as (-> & ->). apply dualIter_levels. Qed.
Lemma dual_levels dt s : aQn (dualTime_step inner E dt s) = Q (dualTime_step inner E dt s) /\ aQnm1 (dualTime_step inner E dt s) = aQn s.
Proof.
  unfold dualTime_step. generalize 20%nat. intros n. cbv zeta. destruct (iter_levels dt n s) as (H & _). set (s1 := iterate n _ s) in *. clearbody s1.
  split; [reflexivity|exact H].
Qed.
Lemma run_app (step : R -> solver X A -> solver X A) l1 l2 s : run step (l1 ++ l2) s = run step l2 (run step l1 s).
Proof. revert s. induction l1 as [|d l IH]; intros s; cbn [run app]; auto. Qed.
(** initializeDualTime makes level n the current state *)
Theorem C47_initial : forall file (s : solver X A), aQn (initializeDualTime inner file s) = Q s /\ Q (initializeDualTime inner file s) = Q s /\
  (nrt s = 0%Z \/ file = None -> aQnm1 (initializeDualTime inner file s) = Q s) /\
  (forall f, nrt s <> 0%Z -> file = Some f -> sameInside inner (aQnm1 (initializeDualTime inner file s)) f).
Proof.
  intros file s. unfold initializeDualTime. destruct (Z.eqb_spec (nrt s) 0); [repeat split; auto; intros; contradiction|].
  destruct file as [f|]; repeat split; auto.
  - intros [H|H]; [contradiction|discriminate].
  - intros f0 _ [= <-] x Hx. cbn. unfold upd. now rewrite Hx.
  - intros f0 _ H. discriminate.
Qed.
(** after every step of every history the stored levels are the states one and two steps back *)
Theorem C47_levels : forall dts dt s, aQn s = Q s ->
  let now := run (dualTime_step inner E) (dts ++ [dt]) s in let prev := run (dualTime_step inner E) dts s in
  aQn now = Q now /\ aQnm1 now = Q prev.
Proof.
  intros dts dt s H0. cbv zeta. rewrite run_app. cbn [run]. destruct (dual_levels dt (run (dualTime_step inner E) dts s)) as (H1 & H2). split; auto.
  rewrite H2. destruct dts as [|d l] using rev_ind; [exact H0|]. rewrite run_app. cbn [run]. exact (proj1 (dual_levels _ _)).
Qed.
(** the residual of the pseudo-time iteration: zero exactly where the second-order backward difference of the three levels equals the
    spatial right-hand side *)
Theorem C47_residual : forall dt s x, dt <> 0 -> inner x = true ->
  let r := dQdt inner dt (RHS E s) in
  adQ r x = 0 <-> (3 * Q (RHS E s) x - 4 * aQn s x + aQnm1 s x) / (2 * dt) = fst (rhs E (titme s) (ph s)) x.
Proof.
  intros dt s x H0 Hx. cbv zeta. unfold dQdt. cbn [adQ setdQ]. unfold upd. rewrite Hx. destruct (RHS_levels s) as (-> & ->).
  assert (D: adQ (RHS E s) = fst (rhs E (titme s) (ph s))) by (unfold RHS; destruct rhs; reflexivity). rewrite D. split; intros H; lra.
Qed.
(** a state satisfying the backward difference equation is left as it is by any number of pseudo-time iterations *)
Lemma fix_stage dt (s : solver X A) t : let r := invertDQ inner E dt (dQdt inner dt (RHS E (setTitme t s))) in
  (forall p, snd (rhs E t p) = p) -> (forall dt p d a, sameInside inner a (fun _ => 0) -> sameInside inner (solve E dt p d a) (fun _ => 0)) ->
  (forall x, inner x = true -> (3 * Q s x - 4 * aQn s x + aQnm1 s x) / (2 * dt) = fst (rhs E t (ph s)) x) ->
  ph r = ph s /\ aQ0 r = aQ0 s /\ sameInside inner (adQ r) (fun _ => 0).
Proof.
  cbv zeta. intros HR HS HB. set (r := RHS E (setTitme t s)).
  assert (Pr: ph r = ph s). { unfold r, RHS. cbn [titme setTitme ph]. specialize (HR (ph s)). destruct (rhs E t (ph s)) as [d p]. exact HR. }
  assert (Dr: adQ r = fst (rhs E t (ph s))) by (unfold r, RHS; cbn [titme setTitme ph]; destruct rhs; reflexivity).
  assert (Nr: aQn r = aQn s /\ aQnm1 r = aQnm1 s) by (apply (RHS_levels (setTitme t s))).
  assert (Ar: aQ0 r = aQ0 s) by (unfold r, RHS; destruct rhs; reflexivity). clearbody r.
  assert (Z: sameInside inner (adQ (dQdt inner dt r)) (fun _ => 0)).
  { intros x Hx. unfold dQdt. cbn [adQ setdQ]. unfold upd. rewrite Hx, Dr. destruct Nr as (-> & ->). unfold Q. rewrite Pr. specialize (HB x Hx). unfold Q in HB. lra. }
  split; [exact Pr|]. split; [exact Ar|]. intros x Hx. unfold invertDQ. cbn [adQ setdQ]. unfold upd. rewrite Hx. now apply HS.
Qed.
Lemma ph_eta (s : solver X A) g : (forall x, g x = q s x) -> ph (setq g s) = ph s.
Proof. intros H. unfold setq, q in *. cbn [ph setPh]. destruct (ph s) as [a b c]. cbn in *. f_equal. now extensionality x. Qed.
Lemma fix1 (r : solver X A) : sameInside inner (adQ r) (fun _ => 0) -> ph (DTrk3s1 inner r) = ph r.
Proof. intros Z. unfold DTrk3s1. rewrite ph_eta; [reflexivity|]. intros x. unfold upd, q. cbn [ph setQ0 aDtau adQ]. destruct (inner x) eqn:I; auto. rewrite Z by auto. ring. Qed.
Lemma fix2 (r : solver X A) : sameInside inner (adQ r) (fun _ => 0) -> sameInside inner (aQ0 r) (q r) -> ph (DTrk3s2 inner r) = ph r.
Proof. intros Z H. unfold DTrk3s2. apply ph_eta. intros x. unfold upd. destruct (inner x) eqn:I; auto. rewrite Z, H by auto. field. Qed.
Lemma fix3 (r : solver X A) : sameInside inner (adQ r) (fun _ => 0) -> sameInside inner (aQ0 r) (q r) -> ph (DTrk3s3 inner r) = ph r.
Proof. intros Z H. unfold DTrk3s3. apply ph_eta. intros x. unfold upd. destruct (inner x) eqn:I; auto. rewrite Z, H by auto. field. Qed.
Theorem C47_fixedPoint : forall dt s, (forall t p, snd (rhs E t p) = p) -> (forall t, conP E t (ph s) = ph s) ->
  (forall dt p d a, sameInside inner a (fun _ => 0) -> sameInside inner (solve E dt p d a) (fun _ => 0)) ->
  (forall t x, inner x = true -> (3 * Q s x - 4 * aQn s x + aQnm1 s x) / (2 * dt) = fst (rhs E t (ph s)) x) ->
  forall n, ph (iterate n (dualIter inner E dt) s) = ph s.
Proof.
  intros dt s HR HC HS HB n.
  assert (ONE: forall s, (forall t, conP E t (ph s) = ph s) ->
    (forall t x, inner x = true -> (3 * Q s x - 4 * aQn s x + aQnm1 s x) / (2 * dt) = fst (rhs E t (ph s)) x) -> ph (dualIter inner E dt s) = ph s).
  { clear s HC HB. intros s HC HB. unfold dualIter. cbv zeta. set (s0 := setDtau _ s).
    assert (BB: forall r t, ph r = ph s -> aQn r = aQn s -> aQnm1 r = aQnm1 s -> forall x, inner x = true -> (3 * Q r x - 4 * aQn r x + aQnm1 r x) / (2 * dt) = fst (rhs E t (ph r)) x).
    { intros r t R1 R2 R3 x Hx. unfold Q. rewrite R1, R2, R3. now apply HB. }
    destruct (fix_stage dt s0 (tme s0) (HR _) HS (BB s0 _ eq_refl eq_refl eq_refl)) as (P1 & A1 & Z1).
    set (r1 := invertDQ inner E dt (dQdt inner dt (RHS E (setTitme (tme s0) s0)))) in *.
    set (s1 := consistifyP E (DTrk3s1 inner r1)).
    assert (L1: aQn s1 = aQn s /\ aQnm1 s1 = aQnm1 s) by (apply (stage_levels (DTrk3s1 inner) dt s0); auto).
    assert (PS1: ph s1 = ph s). { unfold s1, consistifyP. cbn [ph setPh]. rewrite (fix1 _ Z1), P1. apply HC. }
    assert (AS1: sameInside inner (aQ0 s1) (q s1)).
    { intros x Hx. unfold q. rewrite PS1. unfold s1. cbn [aQ0 consistifyP setPh DTrk3s1 setq setQ0]. unfold upd. rewrite Hx. unfold q. now rewrite P1. }
    clearbody s1. destruct L1 as (L1 & L1').
    destruct (fix_stage dt s1 (tme s1 + dt) (HR _) HS (BB s1 _ PS1 L1 L1')) as (P2 & A2 & Z2).
    set (r2 := invertDQ inner E dt (dQdt inner dt (RHS E (setTitme (tme s1 + dt) s1)))) in *.
    set (s2 := consistifyP E (DTrk3s2 inner r2)).
    assert (L2: aQn s2 = aQn s1 /\ aQnm1 s2 = aQnm1 s1) by (apply (stage_levels (DTrk3s2 inner) dt s1); auto).
    assert (AR2: sameInside inner (aQ0 r2) (q r2)) by (unfold q; rewrite P2, A2; exact AS1).
    assert (PS2: ph s2 = ph s). { unfold s2, consistifyP. cbn [ph setPh]. rewrite (fix2 _ Z2 AR2), P2, PS1. apply HC. }
    assert (AS2: sameInside inner (aQ0 s2) (q s2)).
    { unfold q. rewrite PS2, <- PS1. change (aQ0 s2) with (aQ0 r2). rewrite A2. exact AS1. }
    clearbody s2. destruct L2 as (L2 & L2'). rewrite L1 in L2. rewrite L1' in L2'.
    destruct (fix_stage dt s2 (tme s2 + dt / 2) (HR _) HS (BB s2 _ PS2 L2 L2')) as (P3 & A3 & Z3).
    set (r3 := invertDQ inner E dt (dQdt inner dt (RHS E (setTitme (tme s2 + dt / 2) s2)))) in *.
    unfold consistifyP. cbn [ph setPh]. rewrite fix3; auto. 2: unfold q; rewrite P3, A3; exact AS2. rewrite P3, PS2. apply HC. }
  revert s HC HB. induction n as [|n IH]; intros s HC HB; [reflexivity|]. cbn [iterate]. pose proof (ONE s HC HB) as O1.
  transitivity (ph (dualIter inner E dt s)); auto. apply IH.
  - intros t. rewrite O1. apply HC.
  - intros t x Hx. unfold Q. destruct (dualIter_levels dt s) as (-> & ->). rewrite O1. now apply HB.
Qed.
End StrangDual.

(** C92.  Violated by the code: from iteration 0 both older levels are the initial state, so the first dual-time step solves
    3 (Q1 - Q0)/(2 dt) = f and advances a constant source by 2/3 dt only, while the clock advances by dt; with converged pseudo-time
    iterations the solution stays behind the clock for ever (by half a step in the limit). *)
Definition converged {X A} (inner : X -> bool) (E : env X A) (dt c : R) (s : solver X A) : Prop :=
  let r := dualTime_step inner E dt s in forall x, inner x = true -> (3 * Q r x - 4 * aQn s x + aQnm1 s x) / (2 * dt) = c.
Theorem C92_startup_refuted : forall {X A} (inner : X -> bool) (E : env X A) dt c s, dt <> 0 -> nrt s = 0%Z ->
  let at_ n := run (dualTime_step inner E) (repeat dt n) (initializeDualTime inner None s) in
  (forall n, converged inner E dt c (at_ n)) ->
  forall n x, inner x = true -> Q (at_ n) x = Q s x + (INR n - 1 / 2 * (1 - (1 / 3) ^ n)) * dt * c.
Proof.
  intros X A inner E dt c s Hd N at_ HC.
  assert (ST: forall n, at_ (S n) = dualTime_step inner E dt (at_ n)).
  { intros n. unfold at_. replace (repeat dt (S n)) with (repeat dt n ++ [dt]) by (cbn [repeat]; symmetry; apply (repeat_cons n dt)). rewrite run_app. reflexivity. }
  destruct (C47_initial inner None s) as (I1 & I2 & I3 & _). specialize (I3 (or_introl N)).
  assert (LV: forall n x, inner x = true -> aQn (at_ n) x = Q s x + (INR n - 1 / 2 * (1 - (1 / 3) ^ n)) * dt * c /\
    aQnm1 (at_ n) x = Q s x + (match n with O => 0 | S m => INR m - 1 / 2 * (1 - (1 / 3) ^ m) end) * dt * c /\ Q (at_ n) x = aQn (at_ n) x).
  { induction n as [|n IH]; intros x Hx.
    - unfold at_. cbn [repeat run]. rewrite I1, I2, I3. cbn. repeat split; ring.
    - destruct (IH x Hx) as (H1 & H2 & H3). rewrite ST. destruct (dual_levels inner E dt (at_ n)) as (L1 & L2). rewrite L2, L1. split; [|split; [exact H1|reflexivity]].
      specialize (HC n x Hx). cbv zeta in HC. rewrite H1, H2 in HC.
      assert (G: 3 * Q (dualTime_step inner E dt (at_ n)) x = 2 * dt * c + 4 * (Q s x + (INR n - 1 / 2 * (1 - (1 / 3) ^ n)) * dt * c) -
         (Q s x + match n with O => 0 | S m => INR m - 1 / 2 * (1 - (1 / 3) ^ m) end * dt * c)).
      { apply (Rmult_eq_compat_r (2 * dt)) in HC. unfold Rdiv in HC. rewrite Rmult_assoc, Rinv_l in HC by lra. lra. }
      apply (Rmult_eq_reg_l 3); [|lra]. rewrite G. rewrite S_INR. destruct n as [|m]; [cbn; field|]. rewrite S_INR. cbn [pow]. field. }
  intros n x Hx. destruct (LV n x Hx) as (H1 & _ & H3). now rewrite H3.
Qed.
(** such histories exist: a physics whose pseudo-time iteration converges at once *)
Definition quickEnv (c : R) : env unit nat :=
  mkEnv (fun _ p => (fun _ => c, p)) (fun _ p => p) (fun _ p => mkPhys (pq p) (pq p) (match pA p with O => 1 | S O => 2 | _ => 0 end)%nat) (fun _ p => p) (fun _ _ => 1)
        (fun dt p _ d => match pA p with 2%nat => fun x => dt * d x | _ => fun _ => 0 end).
Lemma quick_one c dt s : dt <> 0 -> pA (ph s) = O -> let r := dualIter allIn (quickEnv c) dt s in
  pQ (ph r) tt = (4 * aQn s tt - aQnm1 s tt + 2 * dt * c) / 3 /\ pA (ph r) = O.
Proof.
  intros Hd H0. cbv zeta. destruct s as [[Qa qa k] Q0 Q1 Q2 Q3 dQ Qn Qm tau n t ti bl]. cbn in H0. subst k. split; [|reflexivity].
  cbn -[Rplus Rdiv Rmult Rminus]. unfold upd. cbn -[Rplus Rdiv Rmult Rminus]. unfold upd, q, Q. cbn -[Rplus Rdiv Rmult Rminus]. field. auto.
Qed.
Lemma quick_iter c dt n : dt <> 0 -> forall s, pA (ph s) = O -> let r := iterate (S n) (dualIter allIn (quickEnv c) dt) s in
  pQ (ph r) tt = (4 * aQn s tt - aQnm1 s tt + 2 * dt * c) / 3 /\ pA (ph r) = O.
Proof.
  intros Hd. induction n as [|n IH]; intros s H0; [now apply quick_one|]. cbv zeta. change (iterate (S (S n)) (dualIter allIn (quickEnv c) dt) s) with (iterate (S n) (dualIter allIn (quickEnv c) dt) (dualIter allIn (quickEnv c) dt s)).
  destruct (quick_one c dt s Hd H0) as (_ & H1). specialize (IH _ H1). cbv zeta in IH. destruct (dualIter_levels allIn (quickEnv c) dt s) as (L1 & L2). now rewrite L1, L2 in IH.
Qed.
Definition start0 : solver unit nat := mkSolver (mkPhys (fun _ => 5) (fun _ => 5) O) (fun _ => 0) (fun _ => 0) (fun _ => 0) (fun _ => 0) (fun _ => 0) (fun _ => 0) (fun _ => 0) (fun _ => 0) 0 0 0 [].
Lemma quick_step c dt s : dt <> 0 -> pA (ph s) = O -> converged allIn (quickEnv c) dt c s /\ pA (ph (dualTime_step allIn (quickEnv c) dt s)) = O.
Proof.
  intros Hd H0. unfold converged, dualTime_step. change 20%nat with (S 19). generalize 19%nat. intros m. cbv zeta. destruct (quick_iter c dt m Hd s H0) as (H1 & H2). set (r := iterate (S m) _ s) in *. clearbody r. split; [|exact H2].
  intros [] _. change (Q _ tt) with (pQ (ph r) tt). rewrite H1. field. auto.
Qed.
Example C92_nonvacuous : nrt start0 = 0%Z /\ (forall n, converged allIn (quickEnv 7) (1/10) 7 (run (dualTime_step allIn (quickEnv 7)) (repeat (1/10) n) (initializeDualTime allIn None start0))) /\
  Q (run (dualTime_step allIn (quickEnv 7)) (repeat (1/10) 1) (initializeDualTime allIn None start0)) tt <> 5 + 1/10 * 7.
Proof.
  assert (C: forall n, converged allIn (quickEnv 7) (1/10) 7 (run (dualTime_step allIn (quickEnv 7)) (repeat (1/10) n) (initializeDualTime allIn None start0))).
  { intros n. apply quick_step; [lra|]. assert (G: forall n s, pA (ph s) = O -> pA (ph (run (dualTime_step allIn (quickEnv 7)) (repeat (1/10) n) s)) = O).
    { induction n0 as [|m IH]; intros s H; cbn [repeat run]; auto. apply IH. apply quick_step; auto; lra. }
    apply G. reflexivity. }
  split; [reflexivity|]. split; [exact C|]. rewrite (C92_startup_refuted allIn (quickEnv 7) (1/10) 7 start0) with (n := 1%nat); [|lra|reflexivity|exact C|reflexivity].
  cbn. lra.
Qed.

(** * the hypotheses of C42-C45, C89 are met: a decay problem with a halo cell that consistify fills from the interior *)
Definition decayEnv : env bool unit :=
  mkEnv (fun _ p => (fun x => - (pQ p x), p)) (fun _ p => mkPhys (fun x => pQ p true) (fun x => pQ p true) tt) (fun _ p => mkPhys (fun x => pq p true) (fun x => pq p true) tt)
        (fun _ p => p) (fun _ _ => 1) (fun _ _ _ d => d).
Definition decay0 : solver bool unit := mkSolver (mkPhys (fun _ => 3) (fun _ => 3) tt) (fun _ => 0) (fun _ => 0) (fun _ => 0) (fun _ => 0) (fun _ => 0) (fun _ => 0) (fun _ => 0) (fun _ => 0) 0 0 0 [(7%Z, 1, 2)].
Definition onlyTrue (b : bool) : bool := b.
Example C42_nonvacuous : keepsInterior onlyTrue decayEnv /\ governedBy onlyTrue decayEnv (fun _ y x => - y x) /\ autonomous (fun (_ : R) (y : bool -> R) (x : bool) => - y x) /\
  linearOp (fun (y : bool -> R) x => - y x) /\ consistent decayEnv decay0.
Proof.
  split; [|split; [|split; [|split]]].
  - split; [intros t p [|] H; [reflexivity|discriminate]|intros t p x H; reflexivity].
  - split; [intros t0 t p [|] H; [reflexivity|discriminate]|intros t y z H x Hx; now rewrite (H x Hx)].
  - intros t t' y. reflexivity.
  - intros a y z. extensionality x. ring.
  - exists 0, (mkPhys (fun _ => 3) (fun _ => 3) tt). reflexivity.
Qed.
Example C42_applies : Q (rk1_step decayEnv (1/2) decay0) true = 3 + 1/2 * (- 3).
Proof. cbn. unfold ApEQxB. cbn. lra. Qed.
(** C89 with positivity and boundedness: {y | 0 <= y true <= 3} is preserved by forward Euler steps up to 1 *)
Example C89_nonvacuous : convexSet (fun y : bool -> R => 0 <= y true <= 3) /\ (forall y z, sameInside onlyTrue y z -> 0 <= y true <= 3 -> 0 <= z true <= 3) /\
  (forall (t : R) h (y : bool -> R), 0 <= h <= 1 -> 0 <= y true <= 3 -> 0 <= (fun x => y x + h * - y x) true <= 3).
Proof.
  split; [|split].
  - intros a y z Ha Hy Hz. nra.
  - intros y z H Hy. now rewrite <- (H true eq_refl).
  - intros t h y Hh Hy. cbn. nra.
Qed.
(** C45 with the total of two cells exchanging their difference *)
Definition exchangeEnv : env bool unit :=
  mkEnv (fun _ p => (fun x => pQ p (negb x) - pQ p x, p)) (fun _ p => p) (fun _ p => p) (fun _ p => p) (fun _ _ => 1) (fun _ _ _ d => d).
Example C45_nonvacuous : let f := fun (_ : R) (y : bool -> R) x => y (negb x) - y x in let inn := fun _ : bool => true in let phi := fun y : bool -> R => y true + y false in
  keepsInterior inn exchangeEnv /\ governedBy inn exchangeEnv f /\ linearFunctional phi /\ (forall y z, sameInside inn y z -> phi y = phi z) /\ (forall t y, phi (f t y) = 0) /\
  (forall s : solver bool unit, consistent exchangeEnv s).
Proof.
  cbv zeta. repeat split.
  - intros t y z H x _. now rewrite !H.
  - intros a y z. ring.
  - intros y z H. now rewrite !H.
  - intros t y. cbn. ring.
  - intros s. exists 0, (ph s). reflexivity.
Qed.
Print Assumptions C90_boundary_refuted. Print Assumptions C47_fixedPoint. Print Assumptions C92_startup_refuted.
