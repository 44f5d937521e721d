(** Properties C43, C45, C89: order of accuracy, equilibria and linear invariants, convex invariants. *)
From Coq Require Import Reals ZArith List Bool String Lra Lia FunctionalExtensionality.
From Verif Require Import M_Time S_Time P_Time.
Import ListNotations.
Open Scope R_scope.

Section Linear.
Context {X : Type}.
Variable L : (X -> R) -> X -> R.
Hypothesis HL : linearOp L.
Lemma lin_zero : L (fun _ => 0) = fun _ => 0.
Proof.
  assert (E0: (fun x : X => 0 + -1 * 0) = (fun _ => 0)) by (extensionality x; ring).
  transitivity (L (fun x : X => 0 + -1 * 0)); [now rewrite E0|]. rewrite (HL (-1) (fun _ => 0) (fun _ => 0)). extensionality x. ring.
Qed.
Lemma lin_plus y z : L (fun x => y x + z x) = fun x => L y x + L z x.
Proof. transitivity (L (fun x => y x + 1 * z x)); [f_equal; extensionality x; ring|]. rewrite HL. extensionality x. ring. Qed.
Lemma lin_scal a y : L (fun x => a * y x) = fun x => a * L y x.
Proof. transitivity (L (fun x => (fun _ => 0) x + a * y x)); [f_equal; extensionality x; ring|]. rewrite HL, lin_zero. extensionality x. ring. Qed.
Variable y : X -> R.
Definition lc (a0 a1 a2 a3 a4 : R) (x : X) : R :=
  a0 * powOp 0 L y x + a1 * powOp 1 L y x + a2 * powOp 2 L y x + a3 * powOp 3 L y x + a4 * powOp 4 L y x.
Lemma lin_lc a0 a1 a2 a3 g : (forall x, g x = lc a0 a1 a2 a3 0 x) -> L g = lc 0 a0 a1 a2 a3.
Proof.
  intros H. transitivity (L (lc a0 a1 a2 a3 0)); [f_equal; now extensionality x|]. unfold lc.
  repeat (rewrite lin_plus). repeat rewrite lin_scal. extensionality x. cbn [powOp]. ring.
Qed.
End Linear.

Section Order.
Context {X A : Type}.
Variable inner : X -> bool.

Lemma rk_linear L name tab t dt (y : X -> R) x : linearOp L -> documented name = Some tab ->
  rungeKutta tab (fun _ => L) t dt y x =
  taylor (orderOf name) L dt y x + (if String.eqb name "rk34" then dt ^ 4 / 48 * powOp 4 L y x else 0).
Proof.
  intros HL D. apply documented_cases in D.
  destruct D as [(-> & ->)|[(-> & ->)|[(-> & ->)|[(-> & ->)|[(-> & ->)|(-> & ->)]]]]]; unfold rungeKutta; cbn [tabA tabB slopes comb app].
  - rewrite (lin_lc L HL y 1 0 0 0) by (intros z; unfold lc; cbn [powOp]; ring). unfold lc. cbn -[powOp pow fact INR]. cbn [powOp pow fact]. simpl INR. field.
  - rewrite (lin_lc L HL y 1 0 0 0 (fun x => y x + dt * 0)) by (intros z; unfold lc; cbn [powOp]; ring).
    rewrite (lin_lc L HL y 1 dt 0 0) by (intros z; unfold lc; cbn [powOp]; ring). unfold lc. cbn -[powOp pow fact INR]. cbn [powOp pow fact]. simpl INR. field.
  - rewrite (lin_lc L HL y 1 0 0 0 (fun x => y x + dt * 0)) by (intros z; unfold lc; cbn [powOp]; ring).
    rewrite (lin_lc L HL y 1 dt 0 0) by (intros z; unfold lc; cbn [powOp]; ring). unfold lc. cbn -[powOp pow fact INR]. cbn [powOp pow fact]. simpl INR. field.
  - rewrite (lin_lc L HL y 1 0 0 0 (fun x => y x + dt * 0)) by (intros z; unfold lc; cbn [powOp]; ring).
    rewrite (lin_lc L HL y 1 dt 0 0 (fun x => y x + dt * (1 * lc L y 0 1 0 0 0 x + 0))) by (intros z; unfold lc; cbn [powOp]; ring).
    rewrite (lin_lc L HL y 1 (dt/2) (dt^2/4) 0) by (intros z; unfold lc; cbn [powOp]; field). unfold lc. cbn -[powOp pow fact INR]. cbn [powOp pow fact]. simpl INR. field.
  - rewrite (lin_lc L HL y 1 0 0 0 (fun x => y x + dt * 0)) by (intros z; unfold lc; cbn [powOp]; ring).
    rewrite (lin_lc L HL y 1 (dt/2) 0 0 (fun x => y x + dt * (1/2 * lc L y 0 1 0 0 0 x + 0))) by (intros z; unfold lc; cbn [powOp]; field).
    rewrite (lin_lc L HL y 1 dt (dt^2/4) 0 (fun x => y x + dt * (1/2 * lc L y 0 1 0 0 0 x + (1/2 * lc L y 0 1 (dt/2) 0 0 x + 0)))) by (intros z; unfold lc; cbn [powOp]; field).
    rewrite (lin_lc L HL y 1 (dt/2) (dt^2/4) (dt^3/24)) by (intros z; unfold lc; cbn [powOp]; field). unfold lc. cbn -[powOp pow fact INR]. cbn [powOp pow fact]. simpl INR. field.
  - rewrite (lin_lc L HL y 1 0 0 0 (fun x => y x + dt * 0)) by (intros z; unfold lc; cbn [powOp]; ring).
    rewrite (lin_lc L HL y 1 (dt/2) 0 0 (fun x => y x + dt * (1/2 * lc L y 0 1 0 0 0 x + 0))) by (intros z; unfold lc; cbn [powOp]; field).
    rewrite (lin_lc L HL y 1 (dt/2) (dt^2/4) 0 (fun x => y x + dt * (0 * lc L y 0 1 0 0 0 x + (1/2 * lc L y 0 1 (dt/2) 0 0 x + 0)))) by (intros z; unfold lc; cbn [powOp]; field).
    rewrite (lin_lc L HL y 1 dt (dt^2/2) (dt^3/4)) by (intros z; unfold lc; cbn [powOp]; field). unfold lc. cbn -[powOp pow fact INR]. cbn [powOp pow fact]. simpl INR. field.
Qed.

(** C43, linear systems.  On dy/dt = L y one step gives the Taylor polynomial of the exact solution exp(dt L) y to the
    advertised order (rk34 adds dt^4/48 L^4 y, half of the next term). *)
Theorem C43_linear : forall (E : env X A) L name tab step, documented name = Some tab -> getIntegrator inner E name = Some step ->
  keepsInterior inner E -> governedBy inner E (fun _ => L) -> linearOp L ->
  forall dt s, consistent E s -> forall x, inner x = true ->
  Q (step dt s) x = taylor (orderOf name) L dt (Q s) x + (if String.eqb name "rk34" then dt ^ 4 / 48 * powOp 4 L (Q s) x else 0).
Proof.
  intros E L name tab step D G HK HF HL dt s C x Hx. destruct (C42_tableau inner E (fun _ => L) name tab D HK HF) as (st & G' & H); [now intros _ ? ? ?|].
  rewrite G in G'. injection G' as <-. rewrite (proj1 (H dt s C) x Hx). now apply rk_linear.
Qed.

Lemma rk_poly name tab (cs : X -> list R) t dt (y : X -> R) x : documented name = Some tab -> name <> "maccormack"%string ->
  (List.length (cs x) <= orderOf name)%nat ->
  rungeKutta tab (fun t _ x => poly (cs x) 0 t) t dt y x = y x + polyInt (cs x) 0 t (t + dt).
Proof.
  intros D M LE. apply documented_cases in D.
  destruct D as [(-> & ->)|[(-> & ->)|[(-> & ->)|[(-> & ->)|[(-> & ->)|(-> & ->)]]]]]; unfold rungeKutta; cbn [tabA tabB slopes comb app total fold_right];
    cbn in LE; [| |contradiction| | |];
    destruct (cs x) as [|a [|b [|c [|d [|e r]]]]]; cbn [List.length] in LE; try lia; cbn [poly polyInt pow]; simpl INR; field.
Qed.
(** C43, sources.  A source polynomial in time of degree below the order (any coefficients at every cell) is integrated
    exactly by rk1, rk2, rk3, rk34, rk4. *)
Theorem C43_quadrature : forall (E : env X A) cs name tab step, documented name = Some tab -> getIntegrator inner E name = Some step -> name <> "maccormack"%string ->
  keepsInterior inner E -> governedBy inner E (fun t _ x => poly (cs x) 0 t) -> (forall x, List.length (cs x) <= orderOf name)%nat ->
  forall dt s, consistent E s -> forall x, inner x = true -> Q (step dt s) x = Q s x + polyInt (cs x) 0 (tme s) (tme s + dt).
Proof.
  intros E cs name tab step D G M HK HF LE dt s C x Hx. destruct (C42_tableau inner E _ name tab D HK HF) as (st & G' & H); [now intros ?|].
  rewrite G in G'. injection G' as <-. rewrite (proj1 (H dt s C) x Hx). now apply (rk_poly name).
Qed.
(** over a run: exact at every step *)
Theorem C43_quadrature_run : forall (E : env X A) cs name tab step, documented name = Some tab -> getIntegrator inner E name = Some step -> name <> "maccormack"%string ->
  keepsInterior inner E -> governedBy inner E (fun t _ x => poly (cs x) 0 t) -> (forall x, List.length (cs x) <= orderOf name)%nat ->
  forall dts s, consistent E s -> forall x, inner x = true -> Q (run step dts s) x = Q s x + polyInt (cs x) 0 (tme s) (tme s + fold_right Rplus 0 dts).
Proof.
  intros E cs name tab step D G M HK HF LE dts. assert (PI: forall l k a b c, polyInt l k a b + polyInt l k b c = polyInt l k a c).
  { induction l as [|h l IH]; intros k a b c; cbn [polyInt]; [ring|]. rewrite <- (IH (S k) a b c). unfold Rdiv. ring. }
  assert (P0: forall l k a, polyInt l k a a = 0) by (induction l as [|h l IH]; intros k a; cbn [polyInt]; [ring|rewrite IH; unfold Rdiv; ring]).
  induction dts as [|dt l IH]; intros s C x Hx; cbn [run fold_right].
  - rewrite Rplus_0_r, P0. ring.
  - destruct (C42_tableau inner E _ name tab D HK HF) as (st & G' & H); [now intros ?|]. rewrite G in G'. injection G' as <-.
    rewrite IH; auto; [|apply H; auto]. destruct (step_count inner E name step dt s G) as (_ & -> & _).
    rewrite (C43_quadrature E cs name tab step D G M HK HF LE dt s C x Hx). rewrite <- (PI (cs x) 0%nat (tme s) (tme s + dt) (tme s + (dt + fold_right Rplus 0 l))).
    replace (tme s + (dt + fold_right Rplus 0 l)) with (tme s + dt + fold_right Rplus 0 l) by ring. ring.
Qed.

(** * C45 *)
Lemma comb_zero cs (ks : list (X -> R)) : Forall (fun k => sameInside inner k (fun _ => 0)) ks -> forall x, inner x = true -> comb cs ks x = 0.
Proof. revert ks. induction cs as [|c cs IH]; intros ks F x Hx; cbn [comb]; auto. destruct F as [|k ks H F]; auto. rewrite H, IH by auto. ring. Qed.
Lemma rk_equilibrium (f : R -> (X -> R) -> X -> R) tab t dt (y : X -> R) : (forall t y z, sameInside inner y z -> sameInside inner (f t y) (f t z)) -> (forall t, sameInside inner (f t y) (fun _ => 0)) ->
  sameInside inner (rungeKutta tab f t dt y) y.
Proof.
  intros HF H0 x Hx. unfold rungeKutta. assert (F: Forall (fun k => sameInside inner k (fun _ => 0)) (slopes f t dt y (tabA tab) [])).
  { assert (G: forall rows ks, Forall (fun k => sameInside inner k (fun _ => 0)) ks -> Forall (fun k => sameInside inner k (fun _ => 0)) (slopes f t dt y rows ks)).
    { induction rows as [|r rows IH]; intros ks F; cbn [slopes]; auto. apply IH. apply Forall_app. split; auto. constructor; [|constructor].
      intros z Hz. rewrite <- (H0 (t + dt * total r) z Hz). apply HF; auto. intros w Hw. rewrite (comb_zero _ _ F) by auto. ring. }
    apply G. constructor. }
  rewrite (comb_zero _ _ F) by auto. ring.
Qed.
(** an equilibrium of the right-hand side is left unchanged by every explicit integrator, for any number of steps of any size *)
Theorem C45_equilibrium : forall (E : env X A) f name tab step, documented name = Some tab -> getIntegrator inner E name = Some step ->
  keepsInterior inner E -> governedBy inner E f -> (name = "maccormack"%string -> autonomous f) ->
  forall s, consistent E s -> (forall t, sameInside inner (f t (Q s)) (fun _ => 0)) -> forall dts, sameInside inner (Q (run step dts s)) (Q s).
Proof.
  intros E f name tab step D G HK HF HA s C H0 dts x Hx. rewrite (C42_run inner E f name tab step D G HK HF HA dts s C x Hx).
  assert (GO: forall l t z, sameInside inner z (Q s) -> sameInside inner (rungeKuttaRun tab f t l z) (Q s)).
  { induction l as [|dt l IH]; intros t z H; cbn [rungeKuttaRun]; auto. apply IH. apply (same_trans inner _ z); auto.
    apply rk_equilibrium; [apply HF|]. intros u w Hw. rewrite <- (H0 u w Hw). now apply HF. }
  apply GO; auto. now apply same_refl.
Qed.
Lemma phi_comb (phi : (X -> R) -> R) cs ks : linearFunctional phi -> Forall (fun k => phi k = 0) ks -> phi (comb cs ks) = 0.
Proof.
  intros HL. assert (Z: phi (fun _ => 0) = 0).
  { assert (E0: (fun x : X => 0 + 1 * 0) = (fun _ => 0)) by (extensionality x; ring).
    assert (H: phi (fun x : X => 0 + 1 * 0) = phi (fun _ => 0) + 1 * phi (fun _ => 0)) by apply (HL 1 (fun _ => 0) (fun _ => 0)). rewrite E0 in H. lra. }
  revert ks. induction cs as [|c cs IH]; intros ks F; [exact Z|]. destruct F as [|k ks H F]; [exact Z|].
  change (phi (fun x => comb (c :: cs) (k :: ks) x) = 0). cbn [comb]. replace (fun x => c * k x + comb cs ks x) with (fun x => comb cs ks x + c * k x) by (extensionality x; ring).
  rewrite HL, H, (IH _ F). ring.
Qed.
Lemma rk_invariant (f : R -> (X -> R) -> X -> R) tab t dt (y : X -> R) phi : linearFunctional phi -> (forall t y, phi (f t y) = 0) -> phi (rungeKutta tab f t dt y) = phi y.
Proof.
  intros HL H0. unfold rungeKutta. rewrite HL, phi_comb; [ring|auto|].
  assert (G: forall rows ks, Forall (fun k => phi k = 0) ks -> Forall (fun k => phi k = 0) (slopes f t dt y rows ks)).
  { induction rows as [|r rows IH]; intros ks F; cbn [slopes]; auto. apply IH. apply Forall_app. split; auto. }
  apply G. constructor.
Qed.
(** a linear functional of the interior state (the total mass, momentum, energy) that vanishes on every right-hand side is conserved by any run *)
Theorem C45_invariant : forall (E : env X A) f name tab step phi, documented name = Some tab -> getIntegrator inner E name = Some step ->
  keepsInterior inner E -> governedBy inner E f -> (name = "maccormack"%string -> autonomous f) ->
  linearFunctional phi -> (forall y z, sameInside inner y z -> phi y = phi z) -> (forall t y, phi (f t y) = 0) ->
  forall dts s, consistent E s -> phi (Q (run step dts s)) = phi (Q s).
Proof.
  intros E f name tab step phi D G HK HF HA HL HI H0 dts s C. rewrite (HI _ _ (C42_run inner E f name tab step D G HK HF HA dts s C)).
  generalize (tme s) (Q s). induction dts as [|dt l IH]; intros t y; cbn [rungeKuttaRun]; auto. rewrite IH. now apply rk_invariant.
Qed.

(** * C89: strong stability *)
(** largest step of the method in units of the forward Euler step *)
Definition sspFactor (name : string) : R := if String.eqb name "rk34" then 2 else 1.
Definition hasSsp (name : string) : Prop := In name ["rk1"; "rk2"; "maccormack"; "rk3"; "rk34"]%string.
Lemma convex2 (C : (X -> R) -> Prop) a g y z : convexSet C -> 0 <= a <= 1 -> C y -> C z -> (forall x, g x = a * y x + (1 - a) * z x) -> C g.
Proof. intros HC Ha Hy Hz H. replace g with (fun x => a * y x + (1 - a) * z x) by (extensionality x; now rewrite H). now apply HC. Qed.
Lemma rk_ssp f name tab t dt h0 y (C : (X -> R) -> Prop) : documented name = Some tab -> hasSsp name -> convexSet C ->
  (forall t h y, 0 <= h <= h0 -> C y -> C (fun x => y x + h * f t y x)) -> 0 <= dt <= sspFactor name * h0 -> C y -> C (rungeKutta tab f t dt y).
Proof.
  intros D S HC HE Hdt Hy. apply documented_cases in D.
  destruct D as [(-> & ->)|[(-> & ->)|[(-> & ->)|[(-> & ->)|[(-> & ->)|(-> & ->)]]]]]; cbn in Hdt; unfold rungeKutta; cbn [tabA tabB slopes comb app];
    try (replace (fun x => y x + dt * 0) with y by (extensionality z; ring)).
  - set (K1 := f _ y). assert (C (fun x => y x + dt * K1 x)) by (apply HE; auto; lra).
    replace (fun x => y x + dt * (1 * K1 x + 0)) with (fun x => y x + dt * K1 x) by (extensionality z; ring). auto.
  - set (K1 := f _ y). assert (C1: C (fun x => y x + dt * K1 x)) by (apply HE; auto; lra).
    replace (fun x => y x + dt * (1 * K1 x + 0)) with (fun x => y x + dt * K1 x) by (extensionality z; ring).
    set (Y1 := fun x => y x + dt * K1 x) in *. set (K2 := f _ Y1). assert (C2: C (fun x => Y1 x + dt * K2 x)) by (apply HE; auto; lra).
    eapply (fun g z => convex2 C (1/2) g y z HC) with (3 := C2); [lra|exact Hy|]. intros z. unfold Y1. field.
  - set (K1 := f _ y). assert (C1: C (fun x => y x + dt * K1 x)) by (apply HE; auto; lra).
    replace (fun x => y x + dt * (1 * K1 x + 0)) with (fun x => y x + dt * K1 x) by (extensionality z; ring).
    set (Y1 := fun x => y x + dt * K1 x) in *. set (K2 := f _ Y1). assert (C2: C (fun x => Y1 x + dt * K2 x)) by (apply HE; auto; lra).
    eapply (fun g z => convex2 C (1/2) g y z HC) with (3 := C2); [lra|exact Hy|]. intros z. unfold Y1. field.
  - set (K1 := f _ y). assert (C1: C (fun x => y x + dt * K1 x)) by (apply HE; auto; lra).
    replace (fun x => y x + dt * (1 * K1 x + 0)) with (fun x => y x + dt * K1 x) by (extensionality z; ring).
    set (Y1 := fun x => y x + dt * K1 x) in *. set (K2 := f _ Y1). assert (C2: C (fun x => Y1 x + dt * K2 x)) by (apply HE; auto; lra).
    set (Y2 := fun x => y x + dt * (1/4 * K1 x + (1/4 * K2 x + 0))). assert (CY2: C Y2).
    { eapply (fun g z => convex2 C (3/4) g y z HC) with (3 := C2); [lra|exact Hy|]. intros z. unfold Y2, Y1. field. }
    set (K3 := f _ Y2). assert (C3: C (fun x => Y2 x + dt * K3 x)) by (apply HE; auto; lra).
    eapply (fun g z => convex2 C (1/3) g y z HC) with (3 := C3); [lra|exact Hy|]. intros z. unfold Y2. field.
  - set (K1 := f _ y). assert (C1: C (fun x => y x + dt/2 * K1 x)) by (apply HE; auto; lra).
    replace (fun x => y x + dt * (1/2 * K1 x + 0)) with (fun x => y x + dt/2 * K1 x) by (extensionality z; field).
    set (Y1 := fun x => y x + dt/2 * K1 x) in *. set (K2 := f _ Y1). assert (C2: C (fun x => Y1 x + dt/2 * K2 x)) by (apply HE; auto; lra).
    replace (fun x => y x + dt * (1/2 * K1 x + (1/2 * K2 x + 0))) with (fun x => Y1 x + dt/2 * K2 x) by (extensionality z; unfold Y1; field).
    set (Y2 := fun x => Y1 x + dt/2 * K2 x) in *. set (K3 := f _ Y2). assert (C3: C (fun x => Y2 x + dt/2 * K3 x)) by (apply HE; auto; lra).
    set (Y3 := fun x => y x + dt * (1/6 * K1 x + (1/6 * K2 x + (1/6 * K3 x + 0)))). assert (CY3: C Y3).
    { eapply (fun g z => convex2 C (2/3) g y z HC) with (3 := C3); [lra|exact Hy|]. intros z. unfold Y3, Y2, Y1. field. }
    set (K4 := f _ Y3). assert (C4: C (fun x => Y3 x + dt/2 * K4 x)) by (apply HE; auto; lra).
    match goal with |- C ?g => replace g with (fun x => Y3 x + dt/2 * K4 x); [exact C4|] end. extensionality z. unfold Y3. field.
  - exfalso. unfold hasSsp in S. cbn in S. intuition congruence.
Qed.
(** a convex set of states (bounds on any quantities, total variation, norms) that every forward Euler step up to h0 preserves is
    preserved by whole runs of rk1, rk2, maccormack, rk3 with steps up to h0, and of rk34 with steps up to 2 h0 *)
Theorem C89_ssp : forall (E : env X A) f name tab step (C : (X -> R) -> Prop) h0, documented name = Some tab -> hasSsp name -> getIntegrator inner E name = Some step ->
  keepsInterior inner E -> governedBy inner E f -> (name = "maccormack"%string -> autonomous f) ->
  convexSet C -> (forall y z, sameInside inner y z -> C y -> C z) ->
  (forall t h y, 0 <= h <= h0 -> C y -> C (fun x => y x + h * f t y x)) ->
  forall dts s, (forall dt, In dt dts -> 0 <= dt <= sspFactor name * h0) -> consistent E s -> C (Q s) -> C (Q (run step dts s)).
Proof.
  intros E f name tab step C h0 D S G HK HF HA HC HI HE dts s Hd Cs Hs.
  apply (HI (rungeKuttaRun tab f (tme s) dts (Q s))); [apply same_sym; now apply (C42_run inner E f name)|].
  revert Hd Hs. generalize (tme s) (Q s). clear Cs. induction dts as [|dt l IH]; intros t y Hd Hs; cbn [rungeKuttaRun]; auto.
  apply IH; [intros; apply Hd; now right|]. apply (rk_ssp f name tab t dt h0); auto. apply Hd. now left.
Qed.
End Order.

(** the classical order conditions of the documented tableaus (one per rooted tree of at most 4 vertices) *)
Definition tdot (u v : list R) : R := total (map (fun '(x, y) => x * y) (combine u v)).
Definition nodes (tb : tableau) : list R := map total (tabA tb).
Definition mulA (tb : tableau) (v : list R) : list R := map (fun row => tdot row v) (tabA tb).
Definition had (u v : list R) : list R := map (fun '(x, y) => x * y) (combine u v).
Definition orderConditions (p : nat) (tb : tableau) : Prop :=
  let c := nodes tb in let b := tabB tb in
  ((1 <= p)%nat -> total b = 1) /\ ((2 <= p)%nat -> tdot b c = 1/2) /\
  ((3 <= p)%nat -> tdot b (had c c) = 1/3 /\ tdot b (mulA tb c) = 1/6) /\
  ((4 <= p)%nat -> tdot b (had c (had c c)) = 1/4 /\ tdot b (had c (mulA tb c)) = 1/8 /\ tdot b (mulA tb (had c c)) = 1/12 /\ tdot b (mulA tb (mulA tb c)) = 1/24).
Theorem C43_orderConditions : forall name tab, documented name = Some tab -> orderConditions (orderOf name) tab.
Proof.
  intros name tab D. apply documented_cases in D.
  destruct D as [(-> & ->)|[(-> & ->)|[(-> & ->)|[(-> & ->)|[(-> & ->)|(-> & ->)]]]]]; unfold orderConditions, orderOf; cbn -[Rmult Rplus Rdiv]; repeat split; intros; try lia; try lra.
Qed.
Print Assumptions C43_linear. Print Assumptions C45_invariant. Print Assumptions C89_ssp.
