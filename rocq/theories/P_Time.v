(** Properties C42 - C46, C89, C90: the explicit integrators. *)
From Coq Require Import Reals ZArith List Bool String Lra Lia FunctionalExtensionality.
From Verif Require Import M_Time S_Time.
Import ListNotations.
Open Scope R_scope.

Section RK.
Context {X A : Type}.
Variable inner : X -> bool.
Variable E : env X A.
Hypothesis HK : keepsInterior inner E.
Variable f : R -> (X -> R) -> X -> R.
Hypothesis HF : governedBy inner E f.
Notation "y ~ z" := (sameInside inner y z) (at level 70).
Notation sol := (solver X A).

Lemma same_refl y : y ~ y. Proof. intros x _. reflexivity. Qed.
Lemma same_trans x y z : x ~ y -> y ~ z -> x ~ z. Proof. intros H1 H2 i Hi. now rewrite H1, H2. Qed.
Lemma same_sym x y : x ~ y -> y ~ x. Proof. intros H i Hi. now rewrite H. Qed.

(** what one stage RHS sees and leaves *)
Lemma RHS_dQ (s : sol) t : consistent E s -> adQ (RHS E (setTitme t s)) ~ f t (Q s).
Proof.
  intros (t0 & p & C). unfold RHS, setTitme, Q. cbn [titme ph]. rewrite C. destruct (rhs E t (con E t0 p)) as [d p'] eqn:R. cbn [adQ setdQ].
  intros x Hx. destruct HF as (H1 & H2). pose proof (H1 t0 t p x Hx) as G. rewrite R in G. cbn [fst] in G. rewrite G.
  apply H2; auto. apply same_sym. apply HK.
Qed.
Lemma RHS_Q (s : sol) t : Q (RHS E (setTitme t s)) ~ Q s.
Proof.
  unfold RHS, setTitme, Q. cbn [titme ph]. destruct (rhs E t (ph s)) as [d p'] eqn:R. cbn [ph setPh setdQ].
  intros x Hx. destruct HK as (_ & H). specialize (H t (ph s) x Hx). rewrite R in H. exact H.
Qed.
Lemma RHS_rest (s : sol) : aQ0 (RHS E s) = aQ0 s /\ aQ1 (RHS E s) = aQ1 s /\ aQ2 (RHS E s) = aQ2 s /\ aQ3 (RHS E s) = aQ3 s /\
  tme (RHS E s) = tme s /\ nrt (RHS E s) = nrt s /\ titme (RHS E s) = titme s /\ blks (RHS E s) = blks s.
Proof. unfold RHS. destruct rhs. cbn. auto 10. Qed.
Lemma con_Q (s : sol) : Q (consistify E s) ~ Q s.
Proof. intros x Hx. apply HK. exact Hx. Qed.
Lemma con_consistent (s : sol) : consistent E (consistify E s).
Proof. eexists; eexists; reflexivity. Qed.
Lemma f_cong t y z : y ~ z -> f t y ~ f t z. Proof. apply HF. Qed.
Lemma finish_Q dt (s : sol) : Q (finish dt s) = Q s. Proof. reflexivity. Qed.
Lemma finish_consistent dt (s : sol) : consistent E s -> consistent E (finish dt s).
Proof. intros (t0 & p & C). exists t0, p. exact C. Qed.
Lemma upd_in (o n : X -> R) x : inner x = true -> upd inner o n x = n x. Proof. intros H. unfold upd. now rewrite H. Qed.
Lemma setT_Q t (s : sol) : Q (setTitme t s) = Q s. Proof. reflexivity. Qed.

Lemma stage (s : sol) t t' y : consistent E s -> t = t' -> Q s ~ y -> adQ (RHS E (setTitme t s)) ~ f t' y.
Proof. intros C <- H. eapply same_trans; [now apply RHS_dQ|]. now apply f_cong. Qed.
Lemma setQ_Q g (s : sol) : Q (setQ g s) = g. Proof. reflexivity. Qed.
Lemma con_setQ o g (s : sol) : Q (consistify E (setQ (upd inner o g) s)) ~ g.
Proof. intros x Hx. rewrite con_Q by auto. rewrite setQ_Q. now apply upd_in. Qed.
(** the arrays a stage does not write *)
Lemma RHS_Q0 (s : sol) : aQ0 (RHS E s) = aQ0 s. Proof. apply RHS_rest. Qed.
Lemma RHS_Q1 (s : sol) : aQ1 (RHS E s) = aQ1 s. Proof. apply RHS_rest. Qed.
Lemma RHS_Q2 (s : sol) : aQ2 (RHS E s) = aQ2 s. Proof. apply RHS_rest. Qed.
Lemma RHS_Q3 (s : sol) : aQ3 (RHS E s) = aQ3 s. Proof. apply RHS_rest. Qed.
Lemma RHS_tme (s : sol) : tme (RHS E s) = tme s. Proof. apply RHS_rest. Qed.

Lemma RHS_Q0t (s : sol) t : aQ0 (RHS E (setTitme t s)) = aQ0 s. Proof. apply (RHS_Q0 (setTitme t s)). Qed.
Lemma RHS_Q1t (s : sol) t : aQ1 (RHS E (setTitme t s)) = aQ1 s. Proof. apply (RHS_Q1 (setTitme t s)). Qed.
Lemma RHS_Q2t (s : sol) t : aQ2 (RHS E (setTitme t s)) = aQ2 s. Proof. apply (RHS_Q2 (setTitme t s)). Qed.
Lemma RHS_Q3t (s : sol) t : aQ3 (RHS E (setTitme t s)) = aQ3 s. Proof. apply (RHS_Q3 (setTitme t s)). Qed.
Lemma RHS_tmet (s : sol) t : tme (RHS E (setTitme t s)) = tme s. Proof. apply (RHS_tme (setTitme t s)). Qed.

Ltac open_rk := unfold rungeKutta; cbn [tabA tabB slopes comb total fold_right app].
Ltac inside := let i := fresh "i" in let Hi := fresh "Hi" in intros i Hi; cbn beta.

Lemma rk1_tab dt (s : sol) : consistent E s ->
  Q (rk1_step E dt s) ~ rungeKutta (mkTab [[]] [1]) f (tme s) dt (Q s) /\ consistent E (rk1_step E dt s).
Proof.
  intros C. split; [|apply finish_consistent, con_consistent]. unfold rk1_step. cbv zeta. set (t := tme s). set (y := Q s).
  set (r1 := RHS E (setTitme t s)). rewrite finish_Q. open_rk.
  set (K1 := f (t + dt * 0) _).
  assert (D1: adQ r1 ~ K1) by (apply stage; [auto|ring|inside; unfold y; ring]). assert (Q1: Q r1 ~ y) by apply RHS_Q.
  inside. rewrite con_Q, setQ_Q by auto. unfold ApEQxB. rewrite Q1, D1 by auto. ring.
Qed.
Lemma rk2_tab dt (s : sol) : consistent E s ->
  Q (rk2_step inner E dt s) ~ rungeKutta (mkTab [[]; [1]] [1/2; 1/2]) f (tme s) dt (Q s) /\ consistent E (rk2_step inner E dt s).
Proof.
  intros C. split; [|apply finish_consistent, con_consistent]. unfold rk2_step. cbv zeta. set (t := tme s). set (y := Q s).
  set (r1 := RHS E (setTitme t s)). set (s1 := consistify E (rk2s1 inner dt r1)). set (r2 := RHS E (setTitme (tme s1 + dt) s1)). rewrite finish_Q. open_rk.
  set (K1 := f (t + dt * 0) _). set (K2 := f (t + dt * (1 + 0)) _).
  assert (C1: consistent E s1) by apply con_consistent.
  assert (T1: tme s1 = t) by (apply RHS_tmet).
  assert (D1: adQ r1 ~ K1) by (apply stage; [auto|ring|inside; unfold y; ring]). assert (q1: Q r1 ~ y) by apply RHS_Q.
  assert (Y1: Q s1 ~ fun x => y x + dt * K1 x) by (eapply same_trans; [apply con_setQ|]; inside; rewrite q1, D1 by auto; ring).
  assert (Z1: aQ0 s1 ~ y) by (inside; unfold s1, rk2s1; cbn; rewrite upd_in by auto; now apply q1).
  assert (D2: adQ r2 ~ K2) by (apply stage; [auto|rewrite T1; ring|inside; rewrite Y1 by auto; ring]). assert (q2: Q r2 ~ Q s1) by apply RHS_Q.
  assert (Z2: aQ0 r2 = aQ0 s1) by apply RHS_Q0t.
  eapply same_trans; [apply con_setQ|]. inside. rewrite Z2, Z1, q2, Y1, D2 by auto. field.
Qed.
Lemma mac_tab dt (s : sol) : autonomous f -> consistent E s ->
  Q (maccormack_step inner E dt s) ~ rungeKutta (mkTab [[]; [1]] [1/2; 1/2]) f (tme s) dt (Q s) /\ consistent E (maccormack_step inner E dt s).
Proof.
  intros HA C. split; [|apply finish_consistent, con_consistent]. unfold maccormack_step. cbv zeta. set (t := tme s). set (y := Q s).
  set (s0 := setQ0 (AEQB y) s). change (tme s0) with t.
  set (r1 := RHS E (setTitme t s0)). set (s1 := consistify E (setQ _ r1)). rewrite finish_Q. open_rk.
  set (K1 := f (t + dt * 0) _). set (K2 := f (t + dt * (1 + 0)) _).
  assert (C0: consistent E s0) by exact C. assert (C1: consistent E s1) by apply con_consistent.
  assert (T1: tme s1 = t) by (apply (RHS_tmet s0)).
  assert (D1: adQ r1 ~ K1) by (apply stage; [auto|ring|inside; change (Q s0 i) with (y i); ring]). assert (q1: Q r1 ~ y) by apply (RHS_Q s0).
  assert (Y1: Q s1 ~ fun x => y x + dt * K1 x) by (inside; unfold s1; rewrite con_Q, setQ_Q by auto; unfold ApEQxB; rewrite q1, D1 by auto; ring).
  assert (Z1: aQ0 s1 = y) by (apply (RHS_Q0t s0)).
  assert (TT: titme s1 = t). { unfold s1, r1. cbn. destruct (RHS_rest (setTitme t s0)) as (_ & _ & _ & _ & _ & _ & G & _). exact G. }
  assert (S1: ph (RHS E (setTitme t s1)) = ph (RHS E s1) /\ adQ (RHS E (setTitme t s1)) = adQ (RHS E s1)).
  { unfold RHS. cbn [titme setTitme ph]. rewrite TT. destruct (rhs E t (ph s1)). split; reflexivity. }
  set (r2 := RHS E s1) in *.
  assert (D2: adQ r2 ~ K2).
  { rewrite <- (proj2 S1). unfold K2. rewrite (HA _ t). apply stage; [auto|auto|]. inside. rewrite Y1 by auto. ring. }
  assert (q2: Q r2 ~ Q s1). { unfold Q at 1. rewrite <- (proj1 S1). apply RHS_Q. }
  assert (Z2: aQ0 r2 = aQ0 s1) by apply RHS_Q0.
  eapply same_trans; [apply con_setQ|]. inside. rewrite Z2, Z1, q2, Y1, D2 by auto. field.
Qed.
Lemma rk3_tab dt (s : sol) : consistent E s ->
  Q (rk3_stages inner E dt s) ~ rungeKutta (mkTab [[]; [1]; [1/4; 1/4]] [1/6; 1/6; 2/3]) f (tme s) dt (Q s) /\ consistent E (rk3_stages inner E dt s).
Proof.
  intros C. split; [|apply con_consistent]. unfold rk3_stages. cbv zeta. set (t := tme s). set (y := Q s).
  set (r1 := RHS E (setTitme t s)). set (s1 := consistify E (rk3s1 inner dt r1)). set (r2 := RHS E (setTitme (tme s1 + dt) s1)).
  set (s2 := consistify E (rk3s2 inner dt r2)). set (r3 := RHS E (setTitme (tme s2 + dt / 2) s2)). open_rk.
  set (K1 := f (t + dt * 0) _). set (K2 := f (t + dt * (1 + 0)) _). set (K3 := f (t + dt * (1/4 + _)) _).
  assert (C1: consistent E s1) by apply con_consistent. assert (C2: consistent E s2) by apply con_consistent.
  assert (T1: tme s1 = t) by (apply RHS_tmet). assert (T2: tme s2 = t) by (transitivity (tme s1); [apply RHS_tmet|auto]).
  assert (D1: adQ r1 ~ K1) by (apply stage; [auto|ring|inside; unfold y; ring]). assert (q1: Q r1 ~ y) by apply RHS_Q.
  assert (Y1: Q s1 ~ fun x => y x + dt * K1 x) by (eapply same_trans; [apply con_setQ|]; inside; rewrite q1, D1 by auto; ring).
  assert (Z1: aQ0 s1 ~ y) by (inside; unfold s1, rk3s1; cbn; rewrite upd_in by auto; now apply q1).
  assert (D2: adQ r2 ~ K2) by (apply stage; [auto|rewrite T1; ring|inside; rewrite Y1 by auto; ring]). assert (q2: Q r2 ~ Q s1) by apply RHS_Q.
  assert (Z2: aQ0 r2 = aQ0 s1) by apply RHS_Q0t.
  assert (Y2: Q s2 ~ fun x => y x + dt * (1/4 * K1 x + 1/4 * K2 x)) by (eapply same_trans; [apply con_setQ|]; inside; rewrite Z2, Z1, q2, Y1, D2 by auto; field).
  assert (D3: adQ r3 ~ K3) by (apply stage; [auto|rewrite T2; field|inside; rewrite Y2 by auto; ring]). assert (q3: Q r3 ~ Q s2) by apply RHS_Q.
  assert (Z3: aQ0 r3 = aQ0 s1) by (transitivity (aQ0 s2); [apply RHS_Q0t|apply (RHS_Q0t s1)]).
  eapply same_trans; [apply con_setQ|]. inside. rewrite Z3, Z1, q3, Y2, D3 by auto. field.
Qed.
Lemma rk34_tab dt (s : sol) : consistent E s ->
  Q (rk34_step inner E dt s) ~ rungeKutta (mkTab [[]; [1/2]; [1/2; 1/2]; [1/6; 1/6; 1/6]] [1/6; 1/6; 1/6; 1/2]) f (tme s) dt (Q s) /\ consistent E (rk34_step inner E dt s).
Proof.
  intros C. split; [|apply finish_consistent, con_consistent]. unfold rk34_step. cbv zeta. set (t := tme s). set (y := Q s).
  set (r1 := RHS E (setTitme t s)). set (s1 := consistify E (rk34s1 inner dt r1)). set (r2 := RHS E (setTitme (tme s1 + dt / 2) s1)).
  set (s2 := consistify E (rk34s2 inner dt r2)). set (r3 := RHS E (setTitme (tme s2 + dt) s2)).
  set (s3 := consistify E (rk34s3 inner dt r3)). set (r4 := RHS E (setTitme (tme s3 + dt / 2) s3)). rewrite finish_Q. open_rk.
  set (K1 := f (t + dt * 0) _). set (K2 := f (t + dt * (1/2 + 0)) _). set (K3 := f (t + dt * (1/2 + (1/2 + 0))) _). set (K4 := f (t + dt * (1/6 + _)) _).
  assert (C1: consistent E s1) by apply con_consistent. assert (C2: consistent E s2) by apply con_consistent. assert (C3: consistent E s3) by apply con_consistent.
  assert (T1: tme s1 = t) by (apply RHS_tmet). assert (T2: tme s2 = t) by (transitivity (tme s1); [apply RHS_tmet|auto]). assert (T3: tme s3 = t) by (transitivity (tme s2); [apply RHS_tmet|auto]).
  assert (D1: adQ r1 ~ K1) by (apply stage; [auto|ring|inside; unfold y; ring]). assert (q1: Q r1 ~ y) by apply RHS_Q.
  assert (Y1: Q s1 ~ fun x => y x + dt * (1/2 * K1 x)) by (eapply same_trans; [apply con_setQ|]; inside; rewrite q1, D1 by auto; field).
  assert (Z1: aQ0 s1 ~ y) by (inside; unfold s1, rk34s1; cbn; rewrite upd_in by auto; now apply q1).
  assert (D2: adQ r2 ~ K2) by (apply stage; [auto|rewrite T1; field|inside; rewrite Y1 by auto; ring]). assert (q2: Q r2 ~ Q s1) by apply RHS_Q.
  assert (Y2: Q s2 ~ fun x => y x + dt * (1/2 * K1 x + 1/2 * K2 x)) by (eapply same_trans; [apply con_setQ|]; inside; rewrite q2, Y1, D2 by auto; field).
  assert (D3: adQ r3 ~ K3) by (apply stage; [auto|rewrite T2; field|inside; rewrite Y2 by auto; ring]). assert (q3: Q r3 ~ Q s2) by apply RHS_Q.
  assert (Z3: aQ0 r3 = aQ0 s1) by (transitivity (aQ0 s2); [apply RHS_Q0t|apply (RHS_Q0t s1)]).
  assert (Y3: Q s3 ~ fun x => y x + dt * (1/6 * K1 x + 1/6 * K2 x + 1/6 * K3 x)) by (eapply same_trans; [apply con_setQ|]; inside; rewrite Z3, Z1, q3, Y2, D3 by auto; field).
  assert (D4: adQ r4 ~ K4) by (apply stage; [auto|rewrite T3; field|inside; rewrite Y3 by auto; ring]). assert (q4: Q r4 ~ Q s3) by apply RHS_Q.
  eapply same_trans; [apply con_setQ|]. inside. rewrite q4, Y3, D4 by auto. field.
Qed.
Lemma rk4_tab dt (s : sol) : consistent E s ->
  Q (rk4_step inner E dt s) ~ rungeKutta (mkTab [[]; [1/2]; [0; 1/2]; [0; 0; 1]] [1/6; 1/3; 1/3; 1/6]) f (tme s) dt (Q s) /\ consistent E (rk4_step inner E dt s).
Proof.
  intros C. split; [|apply finish_consistent, con_consistent]. unfold rk4_step. cbv zeta. set (t := tme s). set (y := Q s).
  set (r1 := RHS E (setTitme t s)). set (s1 := consistify E (rk4s1 inner dt r1)). set (r2 := RHS E (setTitme (tme s1 + dt / 2) s1)).
  set (s2 := consistify E (rk4s2 inner dt r2)). set (r3 := RHS E (setTitme (tme s2 + dt / 2) s2)).
  set (s3 := consistify E (rk4s3 inner dt r3)). set (r4 := RHS E (setTitme (tme s3 + dt) s3)). rewrite finish_Q. open_rk.
  set (K1 := f (t + dt * 0) _). set (K2 := f (t + dt * (1/2 + 0)) _). set (K3 := f (t + dt * (0 + (1/2 + 0))) _). set (K4 := f (t + dt * (0 + (0 + _))) _).
  assert (C1: consistent E s1) by apply con_consistent. assert (C2: consistent E s2) by apply con_consistent. assert (C3: consistent E s3) by apply con_consistent.
  assert (T1: tme s1 = t) by (apply RHS_tmet). assert (T2: tme s2 = t) by (transitivity (tme s1); [apply RHS_tmet|auto]). assert (T3: tme s3 = t) by (transitivity (tme s2); [apply RHS_tmet|auto]).
  assert (D1: adQ r1 ~ K1) by (apply stage; [auto|ring|inside; unfold y; ring]). assert (q1: Q r1 ~ y) by apply RHS_Q.
  assert (Z1: aQ0 s1 ~ y) by (inside; unfold s1, rk4s1; cbn; rewrite upd_in by auto; now apply q1).
  assert (A1: aQ1 s1 ~ fun x => dt * K1 x) by (inside; unfold s1, rk4s1; cbn; rewrite upd_in by auto; now rewrite D1).
  assert (Y1: Q s1 ~ fun x => y x + dt * (1/2 * K1 x)).
  { inside. unfold s1. rewrite con_Q by auto. unfold rk4s1. cbv zeta. rewrite setQ_Q, upd_in by auto. fold (aQ0 s1). cbn [aQ0 setQ0 setQ1 aQ1]. rewrite !upd_in by auto. change (adQ (setQ0 (upd inner (aQ0 r1) (Q r1)) r1)) with (adQ r1). rewrite q1, D1 by auto. field. }
  assert (D2: adQ r2 ~ K2) by (apply stage; [auto|rewrite T1; field|inside; rewrite Y1 by auto; ring]). assert (q2: Q r2 ~ Q s1) by apply RHS_Q.
  assert (Z2: aQ0 r2 = aQ0 s1) by apply RHS_Q0t. assert (W2: aQ1 r2 = aQ1 s1) by apply RHS_Q1t.
  assert (A2: aQ2 s2 ~ fun x => dt * K2 x) by (inside; unfold s2, rk4s2; cbn; rewrite upd_in by auto; now rewrite D2).
  assert (Y2: Q s2 ~ fun x => y x + dt * (1/2 * K2 x)).
  { inside. unfold s2. rewrite con_Q by auto. unfold rk4s2. cbv zeta. rewrite setQ_Q, upd_in by auto. cbn [aQ0 setQ2 aQ2]. rewrite !upd_in by auto. rewrite Z2, Z1, D2 by auto. field. }
  assert (D3: adQ r3 ~ K3) by (apply stage; [auto|rewrite T2; field|inside; rewrite Y2 by auto; ring]). assert (q3: Q r3 ~ Q s2) by apply RHS_Q.
  assert (Z3: aQ0 r3 = aQ0 r2) by (apply (RHS_Q0t s2)). assert (W3: aQ1 r3 = aQ1 r2) by (apply (RHS_Q1t s2)). assert (V3: aQ2 r3 = aQ2 s2) by apply RHS_Q2t.
  assert (A3: aQ3 s3 ~ fun x => dt * K3 x) by (inside; unfold s3, rk4s3; cbn; rewrite upd_in by auto; now rewrite D3).
  assert (Y3: Q s3 ~ fun x => y x + dt * K3 x).
  { inside. unfold s3. rewrite con_Q by auto. unfold rk4s3. cbv zeta. rewrite setQ_Q, upd_in by auto. cbn [aQ0 setQ3 aQ3]. rewrite !upd_in by auto. rewrite Z3, Z2, Z1, D3 by auto. ring. }
  assert (D4: adQ r4 ~ K4) by (apply stage; [auto|rewrite T3; field|inside; rewrite Y3 by auto; ring]).
  assert (Z4: aQ0 r4 = aQ0 r3) by (apply (RHS_Q0t s3)). assert (W4: aQ1 r4 = aQ1 r3) by (apply (RHS_Q1t s3)).
  assert (V4: aQ2 r4 = aQ2 r3) by (apply (RHS_Q2t s3)). assert (U4: aQ3 r4 = aQ3 s3) by apply RHS_Q3t.
  eapply same_trans; [apply con_setQ|]. inside. rewrite Z4, Z3, Z2, Z1, W4, W3, W2, A1, V4, V3, A2, U4, A3, D4 by auto. field.
Qed.
End RK.

Lemma documented_cases name tab : documented name = Some tab ->
  (name = "rk1" /\ tab = mkTab [[]] [1])%string \/ (name = "rk2" /\ tab = mkTab [[]; [1]] [1/2; 1/2])%string \/
  (name = "maccormack" /\ tab = mkTab [[]; [1]] [1/2; 1/2])%string \/ (name = "rk3" /\ tab = mkTab [[]; [1]; [1/4; 1/4]] [1/6; 1/6; 2/3])%string \/
  (name = "rk34" /\ tab = mkTab [[]; [1/2]; [1/2; 1/2]; [1/6; 1/6; 1/6]] [1/6; 1/6; 1/6; 1/2])%string \/
  (name = "rk4" /\ tab = mkTab [[]; [1/2]; [0; 1/2]; [0; 0; 1]] [1/6; 1/3; 1/3; 1/6])%string.
Proof.
  unfold documented.
  destruct (String.eqb_spec name "rk1"); [intros [= <-]; auto|]. destruct (String.eqb_spec name "rk2"); [intros [= <-]; auto|].
  destruct (String.eqb_spec name "maccormack"); [intros [= <-]; auto|]. destruct (String.eqb_spec name "rk3"); [intros [= <-]; auto 6|].
  destruct (String.eqb_spec name "rk34"); [intros [= <-]; auto 7|]. destruct (String.eqb_spec name "rk4"); [intros [= <-]; auto 8|]. discriminate.
Qed.

Section Counters.
Context {X A : Type}.
Variable inner : X -> bool.
Variable E : env X A.
Notation sol := (solver X A).
Lemma corrector_tme dt (s : sol) : tme (corrector inner dt s) = tme s. Proof. reflexivity. Qed.
Lemma rk2s1_tme dt (s : sol) : tme (rk2s1 inner dt s) = tme s. Proof. reflexivity. Qed.
Lemma rk2s2_tme dt (s : sol) : tme (rk2s2 inner dt s) = tme s. Proof. reflexivity. Qed.
Lemma rk3s1_tme dt (s : sol) : tme (rk3s1 inner dt s) = tme s. Proof. reflexivity. Qed.
Lemma rk3s2_tme dt (s : sol) : tme (rk3s2 inner dt s) = tme s. Proof. reflexivity. Qed.
Lemma rk3s3_tme dt (s : sol) : tme (rk3s3 inner dt s) = tme s. Proof. reflexivity. Qed.
Lemma rk34s1_tme dt (s : sol) : tme (rk34s1 inner dt s) = tme s. Proof. reflexivity. Qed.
Lemma rk34s2_tme dt (s : sol) : tme (rk34s2 inner dt s) = tme s. Proof. reflexivity. Qed.
Lemma rk34s3_tme dt (s : sol) : tme (rk34s3 inner dt s) = tme s. Proof. reflexivity. Qed.
Lemma rk34s4_tme dt (s : sol) : tme (rk34s4 inner dt s) = tme s. Proof. reflexivity. Qed.
Lemma rk4s1_tme dt (s : sol) : tme (rk4s1 inner dt s) = tme s. Proof. reflexivity. Qed.
Lemma rk4s2_tme dt (s : sol) : tme (rk4s2 inner dt s) = tme s. Proof. reflexivity. Qed.
Lemma rk4s3_tme dt (s : sol) : tme (rk4s3 inner dt s) = tme s. Proof. reflexivity. Qed.
Lemma rk4s4_tme dt (s : sol) : tme (rk4s4 inner dt s) = tme s. Proof. reflexivity. Qed.
Lemma DTrk3s1_tme (s : sol) : tme (DTrk3s1 inner s) = tme s. Proof. reflexivity. Qed.
Lemma DTrk3s2_tme (s : sol) : tme (DTrk3s2 inner s) = tme s. Proof. reflexivity. Qed.
Lemma DTrk3s3_tme (s : sol) : tme (DTrk3s3 inner s) = tme s. Proof. reflexivity. Qed.
Lemma dQdt_tme dt (s : sol) : tme (dQdt inner dt s) = tme s. Proof. reflexivity. Qed.
Lemma invertDQ_tme dt (s : sol) : tme (invertDQ inner E dt s) = tme s. Proof. reflexivity. Qed.
Lemma consistify_tme (s : sol) : tme (consistify E s) = tme s. Proof. reflexivity. Qed.
Lemma consistifyP_tme (s : sol) : tme (consistifyP E s) = tme s. Proof. reflexivity. Qed.
Lemma RHSe_tme (s : sol) : tme (RHS E s) = tme s. Proof. unfold RHS. destruct rhs. reflexivity. Qed.
Lemma setTitme_tme (v : R) (s : sol) : tme (setTitme v s) = tme s. Proof. reflexivity. Qed.
Lemma setQ_tme (v : X -> R) (s : sol) : tme (setQ v s) = tme s. Proof. reflexivity. Qed.
Lemma setQ0_tme (v : X -> R) (s : sol) : tme (setQ0 v s) = tme s. Proof. reflexivity. Qed.
Lemma setDtau_tme (v : X -> R) (s : sol) : tme (setDtau v s) = tme s. Proof. reflexivity. Qed.
Lemma setPh_tme (v : phys X A) (s : sol) : tme (setPh v s) = tme s. Proof. reflexivity. Qed.
Lemma corrector_nrt dt (s : sol) : nrt (corrector inner dt s) = nrt s. Proof. reflexivity. Qed.
Lemma rk2s1_nrt dt (s : sol) : nrt (rk2s1 inner dt s) = nrt s. Proof. reflexivity. Qed.
Lemma rk2s2_nrt dt (s : sol) : nrt (rk2s2 inner dt s) = nrt s. Proof. reflexivity. Qed.
Lemma rk3s1_nrt dt (s : sol) : nrt (rk3s1 inner dt s) = nrt s. Proof. reflexivity. Qed.
Lemma rk3s2_nrt dt (s : sol) : nrt (rk3s2 inner dt s) = nrt s. Proof. reflexivity. Qed.
Lemma rk3s3_nrt dt (s : sol) : nrt (rk3s3 inner dt s) = nrt s. Proof. reflexivity. Qed.
Lemma rk34s1_nrt dt (s : sol) : nrt (rk34s1 inner dt s) = nrt s. Proof. reflexivity. Qed.
Lemma rk34s2_nrt dt (s : sol) : nrt (rk34s2 inner dt s) = nrt s. Proof. reflexivity. Qed.
Lemma rk34s3_nrt dt (s : sol) : nrt (rk34s3 inner dt s) = nrt s. Proof. reflexivity. Qed.
Lemma rk34s4_nrt dt (s : sol) : nrt (rk34s4 inner dt s) = nrt s. Proof. reflexivity. Qed.
Lemma rk4s1_nrt dt (s : sol) : nrt (rk4s1 inner dt s) = nrt s. Proof. reflexivity. Qed.
Lemma rk4s2_nrt dt (s : sol) : nrt (rk4s2 inner dt s) = nrt s. Proof. reflexivity. Qed.
Lemma rk4s3_nrt dt (s : sol) : nrt (rk4s3 inner dt s) = nrt s. Proof. reflexivity. Qed.
Lemma rk4s4_nrt dt (s : sol) : nrt (rk4s4 inner dt s) = nrt s. Proof. reflexivity. Qed.
Lemma DTrk3s1_nrt (s : sol) : nrt (DTrk3s1 inner s) = nrt s. Proof. reflexivity. Qed.
Lemma DTrk3s2_nrt (s : sol) : nrt (DTrk3s2 inner s) = nrt s. Proof. reflexivity. Qed.
Lemma DTrk3s3_nrt (s : sol) : nrt (DTrk3s3 inner s) = nrt s. Proof. reflexivity. Qed.
Lemma dQdt_nrt dt (s : sol) : nrt (dQdt inner dt s) = nrt s. Proof. reflexivity. Qed.
Lemma invertDQ_nrt dt (s : sol) : nrt (invertDQ inner E dt s) = nrt s. Proof. reflexivity. Qed.
Lemma consistify_nrt (s : sol) : nrt (consistify E s) = nrt s. Proof. reflexivity. Qed.
Lemma consistifyP_nrt (s : sol) : nrt (consistifyP E s) = nrt s. Proof. reflexivity. Qed.
Lemma RHSe_nrt (s : sol) : nrt (RHS E s) = nrt s. Proof. unfold RHS. destruct rhs. reflexivity. Qed.
Lemma setTitme_nrt (v : R) (s : sol) : nrt (setTitme v s) = nrt s. Proof. reflexivity. Qed.
Lemma setQ_nrt (v : X -> R) (s : sol) : nrt (setQ v s) = nrt s. Proof. reflexivity. Qed.
Lemma setQ0_nrt (v : X -> R) (s : sol) : nrt (setQ0 v s) = nrt s. Proof. reflexivity. Qed.
Lemma setDtau_nrt (v : X -> R) (s : sol) : nrt (setDtau v s) = nrt s. Proof. reflexivity. Qed.
Lemma setPh_nrt (v : phys X A) (s : sol) : nrt (setPh v s) = nrt s. Proof. reflexivity. Qed.
End Counters.
#[export] Hint Rewrite @corrector_tme : counters.
#[export] Hint Rewrite @rk2s1_tme : counters.
#[export] Hint Rewrite @rk2s2_tme : counters.
#[export] Hint Rewrite @rk3s1_tme : counters.
#[export] Hint Rewrite @rk3s2_tme : counters.
#[export] Hint Rewrite @rk3s3_tme : counters.
#[export] Hint Rewrite @rk34s1_tme : counters.
#[export] Hint Rewrite @rk34s2_tme : counters.
#[export] Hint Rewrite @rk34s3_tme : counters.
#[export] Hint Rewrite @rk34s4_tme : counters.
#[export] Hint Rewrite @rk4s1_tme : counters.
#[export] Hint Rewrite @rk4s2_tme : counters.
#[export] Hint Rewrite @rk4s3_tme : counters.
#[export] Hint Rewrite @rk4s4_tme : counters.
#[export] Hint Rewrite @DTrk3s1_tme : counters.
#[export] Hint Rewrite @DTrk3s2_tme : counters.
#[export] Hint Rewrite @DTrk3s3_tme : counters.
#[export] Hint Rewrite @dQdt_tme : counters.
#[export] Hint Rewrite @invertDQ_tme : counters.
#[export] Hint Rewrite @consistify_tme : counters.
#[export] Hint Rewrite @consistifyP_tme : counters.
#[export] Hint Rewrite @RHSe_tme : counters.
#[export] Hint Rewrite @setTitme_tme : counters.
#[export] Hint Rewrite @setQ_tme : counters.
#[export] Hint Rewrite @setQ0_tme : counters.
#[export] Hint Rewrite @setDtau_tme : counters.
#[export] Hint Rewrite @setPh_tme : counters.
#[export] Hint Rewrite @corrector_nrt : counters.
#[export] Hint Rewrite @rk2s1_nrt : counters.
#[export] Hint Rewrite @rk2s2_nrt : counters.
#[export] Hint Rewrite @rk3s1_nrt : counters.
#[export] Hint Rewrite @rk3s2_nrt : counters.
#[export] Hint Rewrite @rk3s3_nrt : counters.
#[export] Hint Rewrite @rk34s1_nrt : counters.
#[export] Hint Rewrite @rk34s2_nrt : counters.
#[export] Hint Rewrite @rk34s3_nrt : counters.
#[export] Hint Rewrite @rk34s4_nrt : counters.
#[export] Hint Rewrite @rk4s1_nrt : counters.
#[export] Hint Rewrite @rk4s2_nrt : counters.
#[export] Hint Rewrite @rk4s3_nrt : counters.
#[export] Hint Rewrite @rk4s4_nrt : counters.
#[export] Hint Rewrite @DTrk3s1_nrt : counters.
#[export] Hint Rewrite @DTrk3s2_nrt : counters.
#[export] Hint Rewrite @DTrk3s3_nrt : counters.
#[export] Hint Rewrite @dQdt_nrt : counters.
#[export] Hint Rewrite @invertDQ_nrt : counters.
#[export] Hint Rewrite @consistify_nrt : counters.
#[export] Hint Rewrite @consistifyP_nrt : counters.
#[export] Hint Rewrite @RHSe_nrt : counters.
#[export] Hint Rewrite @setTitme_nrt : counters.
#[export] Hint Rewrite @setQ_nrt : counters.
#[export] Hint Rewrite @setQ0_nrt : counters.
#[export] Hint Rewrite @setDtau_nrt : counters.
#[export] Hint Rewrite @setPh_nrt : counters.

Section Theorems.
Context {X A : Type}.
Variable inner : X -> bool.

(** C42.  Every explicit integrator performs the step of the documented Runge-Kutta method on the interior conserved
    variables, for every right-hand side (a function of time and state; for maccormack of the state only). *)
Theorem C42_tableau : forall (E : env X A) f name tab, documented name = Some tab ->
  keepsInterior inner E -> governedBy inner E f -> (name = "maccormack"%string -> autonomous f) ->
  exists step, getIntegrator inner E name = Some step /\
  forall dt s, consistent E s ->
    sameInside inner (Q (step dt s)) (rungeKutta tab f (tme s) dt (Q s)) /\ consistent E (step dt s).
Proof.
  intros E f name tab D HK HF HA. apply documented_cases in D.
  destruct D as [(-> & ->)|[(-> & ->)|[(-> & ->)|[(-> & ->)|[(-> & ->)|(-> & ->)]]]]]; eexists; (split; [reflexivity|]); intros dt s C.
  - now apply rk1_tab.
  - now apply rk2_tab.
  - apply mac_tab; auto.
  - pose proof (rk3_tab inner E HK f HF dt s C) as (P1 & P2). split; [exact P1|]. now apply finish_consistent.
  - now apply rk34_tab.
  - now apply rk4_tab.
Qed.
(** the Runge-Kutta step only sees the interior *)
Lemma rk_cong f tab t dt y z : (forall t y z, sameInside inner y z -> sameInside inner (f t y) (f t z)) -> sameInside inner y z ->
  sameInside inner (rungeKutta tab f t dt y) (rungeKutta tab f t dt z).
Proof.
  intros HF H. assert (CB: forall cs ks ls, Forall2 (sameInside inner) ks ls -> sameInside inner (comb cs ks) (comb cs ls)).
  { induction cs as [|c cs IH]; intros ks ls F; [intros x _; reflexivity|]. destruct F as [|k l ks ls E F]; [intros x _; reflexivity|].
    intros x Hx. cbn [comb]. rewrite (E x Hx), (IH _ _ F x Hx). reflexivity. }
  assert (SL: forall rows ks ls, Forall2 (sameInside inner) ks ls -> Forall2 (sameInside inner) (slopes f t dt y rows ks) (slopes f t dt z rows ls)).
  { induction rows as [|r rows IH]; intros ks ls F; cbn [slopes]; auto. apply IH. apply Forall2_app; auto. constructor; [|constructor].
    apply HF. intros x Hx. now rewrite (H x Hx), (CB _ _ _ F x Hx). }
  intros x Hx. unfold rungeKutta. rewrite (H x Hx). now rewrite (CB _ _ _ (SL (tabA tab) [] [] (Forall2_nil _)) x Hx).
Qed.
Lemma finish_tme dt (s : solver X A) : tme (finish dt s) = tme s + dt. Proof. reflexivity. Qed.
Lemma con_tme (E : env X A) s : tme (consistify E s) = tme s. Proof. reflexivity. Qed.
Lemma stages3_counters (E : env X A) dt s : tme (rk3_stages inner E dt s) = tme s /\ nrt (rk3_stages inner E dt s) = nrt s.
Proof. unfold rk3_stages. cbv zeta. autorewrite with counters. auto. Qed.
Lemma dual_counters (E : env X A) dt n : forall s, tme (iterate n (dualIter inner E dt) s) = tme s /\ nrt (iterate n (dualIter inner E dt) s) = nrt s.
Proof.
  induction n as [|n IH]; intros s; [auto|]. cbn [iterate]. destruct (IH (dualIter inner E dt s)) as (-> & ->).
  unfold dualIter. cbv zeta. autorewrite with counters. auto.
Qed.
Definition synced (s : solver X A) : Prop := forall b, In b (blks s) -> b = (nrt s, tme s, titme s).
Lemma set3_synced n t u (s : solver X A) : synced (setTitme u (setTme t (setNrt n s))).
Proof. intros b. cbn. rewrite !map_map. intros H. apply in_map_iff in H. destruct H as ([[a c] d] & <- & _). reflexivity. Qed.
Lemma finish_count dt (s : solver X A) : let r := finish dt s in nrt r = (nrt s + 1)%Z /\ tme r = tme s + dt /\ titme r = tme r /\ synced r.
Proof. cbv zeta. repeat split; auto. apply set3_synced. Qed.
Lemma finish_synced dt (s : solver X A) : synced (finish dt s). Proof. apply finish_count. Qed.
Definition counted (name : string) (dt : R) (s r : solver X A) : Prop :=
  nrt r = (nrt s + 1)%Z /\ tme r = tme s + dt /\ synced r /\ (name <> "strang"%string -> titme r = tme r).
Lemma fin_counted name dt s x : tme x = tme s -> nrt x = nrt s -> counted name dt s (finish dt x).
Proof. intros T N. destruct (finish_count dt x) as (H1 & H2 & H3 & H4). rewrite N in H1. rewrite T in H2. repeat split; auto. Qed.
Lemma strang_counted name dt s x : tme x = tme s -> nrt x = nrt s -> name = "strang"%string ->
  counted name dt s (setTitme (tme (setTme (tme (setNrt (nrt x + 1) x) + dt) (setNrt (nrt x + 1) x)) + dt) (setTme (tme (setNrt (nrt x + 1) x) + dt) (setNrt (nrt x + 1) x))).
Proof.
  intros T N M. unfold counted. repeat split.
  - cbn [nrt setTitme setTme setNrt]. now rewrite N.
  - cbn [tme setTitme setTme setNrt]. now rewrite T.
  - apply set3_synced.
  - intros H. contradiction.
Qed.
Lemma rk1_counted (E : env X A) name dt s : counted name dt s (rk1_step E dt s).
Proof. unfold rk1_step. cbv zeta. apply fin_counted; autorewrite with counters; reflexivity. Qed.
Lemma rk2_counted (E : env X A) name dt s : counted name dt s (rk2_step inner E dt s).
Proof. unfold rk2_step. cbv zeta. apply fin_counted; autorewrite with counters; reflexivity. Qed.
Lemma mac_counted (E : env X A) name dt s : counted name dt s (maccormack_step inner E dt s).
Proof. unfold maccormack_step. cbv zeta. apply fin_counted; autorewrite with counters; reflexivity. Qed.
Lemma rk34_counted (E : env X A) name dt s : counted name dt s (rk34_step inner E dt s).
Proof. unfold rk34_step. cbv zeta. apply fin_counted; autorewrite with counters; reflexivity. Qed.
Lemma rk4_counted (E : env X A) name dt s : counted name dt s (rk4_step inner E dt s).
Proof. unfold rk4_step. cbv zeta. apply fin_counted; autorewrite with counters; reflexivity. Qed.
Lemma rk3_counted (E : env X A) name dt s : counted name dt s (rk3_step inner E dt s).
Proof. unfold rk3_step. destruct (stages3_counters E dt s). now apply fin_counted. Qed.
Lemma str_counted (E : env X A) name dt s : name = "strang"%string -> counted name dt s (strang_step inner E dt s).
Proof.
  intros H. unfold strang_step. cbv zeta. destruct (stages3_counters E (dt/2) s) as (T1 & N1). set (s1 := rk3_stages inner E (dt / 2) s) in *. clearbody s1.
  set (s2 := consistify E _). assert (T2: tme s2 = tme s) by exact T1. assert (N2: nrt s2 = nrt s) by exact N1. clearbody s2.
  destruct (stages3_counters E (dt/2) s2) as (T3 & N3). set (s3 := rk3_stages inner E (dt / 2) s2) in *. clearbody s3.
  apply strang_counted; congruence.
Qed.
Lemma dual_counted (E : env X A) name dt s : counted name dt s (dualTime_step inner E dt s).
Proof.
  unfold dualTime_step. generalize 20%nat. intros n. cbv zeta. destruct (dual_counters E dt n s) as (T & N). set (s1 := iterate n _ s) in *. clearbody s1.
  now apply fin_counted.
Qed.
Lemma step_count (E : env X A) name step dt s : getIntegrator inner E name = Some step -> counted name dt s (step dt s).
Proof.
  unfold getIntegrator.
  destruct (String.eqb_spec name "rk1"); [intros [= <-]; apply rk1_counted|].
  destruct (String.eqb_spec name "rk2"); [intros [= <-]; apply rk2_counted|].
  destruct (String.eqb_spec name "maccormack"); [intros [= <-]; apply mac_counted|].
  destruct (String.eqb_spec name "rk3"); [intros [= <-]; apply rk3_counted|].
  destruct (String.eqb_spec name "rk34"); [intros [= <-]; apply rk34_counted|].
  destruct (String.eqb_spec name "rk4"); [intros [= <-]; apply rk4_counted|].
  destruct (String.eqb_spec name "strang"); [intros [= <-]; now apply str_counted|].
  destruct (String.eqb_spec name "dualTime"); [intros [= <-]; apply dual_counted|discriminate].
Qed.

(** C42 over a whole run, with any sequence of step sizes. *)
Theorem C42_run : forall (E : env X A) f name tab step, documented name = Some tab -> getIntegrator inner E name = Some step ->
  keepsInterior inner E -> governedBy inner E f -> (name = "maccormack"%string -> autonomous f) ->
  forall dts s, consistent E s -> sameInside inner (Q (run step dts s)) (rungeKuttaRun tab f (tme s) dts (Q s)).
Proof.
  intros E f name tab step D G HK HF HA dts. destruct (C42_tableau E f name tab D HK HF HA) as (st & G' & H). rewrite G in G'. injection G' as <-.
  assert (RC: forall l t y z, sameInside inner y z -> sameInside inner (rungeKuttaRun tab f t l y) (rungeKuttaRun tab f t l z)).
  { induction l as [|a l IHl]; intros; cbn [rungeKuttaRun]; auto. apply IHl. apply rk_cong; auto. apply HF. }
  induction dts as [|dt l IH]; intros s C; [intros x _; reflexivity|]. cbn [run rungeKuttaRun].
  destruct (H dt s C) as (H1 & H2). intros x Hx. rewrite (IH (step dt s) H2 x Hx). destruct (step_count E name step dt s G) as (_ & -> & _). now apply RC.
Qed.

(** C44.  Whatever the physics: after N steps of any sizes nrt has grown by N, tme by their sum, every block carries the
    counters of the solver object, and except for strang the in-step time is the time. *)
Theorem C44_counters : forall (E : env X A) name step, getIntegrator inner E name = Some step -> forall dts s, dts <> [] ->
  let r := run step dts s in
  nrt r = (nrt s + Z.of_nat (List.length dts))%Z /\ tme r = tme s + fold_right Rplus 0 dts /\
  (forall b, In b (blks r) -> b = (nrt r, tme r, titme r)) /\ (name <> "strang"%string -> titme r = tme r).
Proof.
  intros E name step G dts. induction dts as [|dt l IH]; intros s H; [contradiction|]. cbv zeta. cbn [run List.length fold_right].
  destruct (step_count E name step dt s G) as (N & T & S & U). destruct l as [|dt2 l].
  - cbn [run List.length fold_right]. rewrite N, T. repeat split; auto; try lia; try ring. rewrite <- N, <- T. apply S. rewrite <- T. exact U.
  - destruct (IH (step dt s)) as (N2 & T2 & S2 & U2); [discriminate|]. rewrite N2, T2, N, T. repeat split; auto; try lia; try ring.
    + rewrite <- N, <- T, <- N2, <- T2. exact S2.
    + rewrite <- T, <- T2. exact U2.
Qed.

(** C46.  Violated by the code: after a strang step the in-step time is one step ahead of the time (and so are the
    boundary conditions of whatever runs next). *)
Theorem C46_strang_refuted : forall (E : env X A) dt s, dt <> 0 ->
  let r := strang_step inner E dt s in titme r = tme r + dt /\ titme r <> tme r.
Proof.
  intros E dt s H. cbv zeta. unfold strang_step. cbv zeta. generalize (rk3_stages inner E (dt / 2) (consistify E
    (setPh (stiff E dt (ph (rk3_stages inner E (dt / 2) s))) (rk3_stages inner E (dt / 2) s)))). intros s3.
  cbn [titme tme setTitme setTme setNrt nrt]. split; [reflexivity|lra].
Qed.
End Theorems.
Print Assumptions C42_run.
