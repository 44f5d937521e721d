(** Chemistry: elements and mass (C69). *)
From Coq Require Import Reals ZArith List Bool Lia Lra.
From Verif Require Import M_Halo S_Sum L_Grid1 L_Sum M_Thermo S_Thermo L_Thermo M_Chem M_Chem_FFCMY M_Chem_Skeletal M_Chem_GRI30 S_Chem L_Chem.
Import ListNotations.
Open Scope R_scope.

(** the three mechanisms with the formulas of their species *)
Inductive mechanism : mech -> list formula -> Prop :=
  | is_ffcmy : mechanism ffcmy ffcmy_formulas
  | is_skeletal : mechanism skeletal skeletal_formulas
  | is_gri30 : mechanism gri30 gri30_formulas.

Definition checks (m : mech) (t : list formula) : bool :=
  srcOK m && forallb (wfReac (m_ns m)) (m_reacs m) && forallb (balanced t) (m_reacs m) && forallb (gibbsOK (m_ns m)) (m_reacs m)
  && forallb (posReac (m_ns m)) (m_reacs m) && (2 <=? m_ns m)%Z.
Lemma checked_ffcmy : checks ffcmy ffcmy_formulas = true. Proof. vm_compute. reflexivity. Qed.
Lemma checked_skeletal : checks skeletal skeletal_formulas = true. Proof. vm_compute. reflexivity. Qed.
Lemma checked_gri30 : checks gri30 gri30_formulas = true. Proof. vm_compute. reflexivity. Qed.
Lemma checked m t : mechanism m t -> srcOK m = true /\ forallb (wfReac (m_ns m)) (m_reacs m) = true /\ forallb (balanced t) (m_reacs m) = true /\
  forallb (gibbsOK (m_ns m)) (m_reacs m) = true /\ forallb (posReac (m_ns m)) (m_reacs m) = true /\ (2 <= m_ns m)%Z.
Proof.
  intros H. assert (C: checks m t = true) by (destruct H; [apply checked_ffcmy|apply checked_skeletal|apply checked_gri30]).
  unfold checks in C. rewrite !andb_true_iff, Z.leb_le in C. tauto.
Qed.

(** C69: for every value of the reaction rates the molar sources carry no net atoms of any element *)
Theorem C69_elements_conserved : forall m t q e, mechanism m t -> List.length q = List.length (m_reacs m) ->
  sumZ 0 (m_ns m) (fun n => IZR (atomsOf t n e) * molarSource m q n) = 0.
Proof. intros m t q e HM Hq. destruct (checked m t HM) as (A & B & C & _). now apply elements_zero. Qed.
(** C69: and no net mass, when molecular weights are sums of atomic weights *)
Theorem C69_mass_conserved : forall m t th w q, mechanism m t -> atomicWeights t th (m_ns m) w -> List.length q = List.length (m_reacs m) ->
  sumZ 0 (m_ns m) (massSource m th q) = 0.
Proof.
  intros m t th w q HM HW Hq.
  rewrite (sumZ_ext _ _ _ (fun n => w eH * (IZR (atomsOf t n eH) * molarSource m q n) + (w eC * (IZR (atomsOf t n eC) * molarSource m q n) +
    (w eO * (IZR (atomsOf t n eO) * molarSource m q n) + (w eN * (IZR (atomsOf t n eN) * molarSource m q n) + w eAr * (IZR (atomsOf t n eAr) * molarSource m q n)))))).
  - rewrite (sumZ_plus 0 (m_ns m) (fun n => w eH * (IZR (atomsOf t n eH) * molarSource m q n))).
    rewrite (sumZ_plus 0 (m_ns m) (fun n => w eC * (IZR (atomsOf t n eC) * molarSource m q n))).
    rewrite (sumZ_plus 0 (m_ns m) (fun n => w eO * (IZR (atomsOf t n eO) * molarSource m q n))).
    rewrite (sumZ_plus 0 (m_ns m) (fun n => w eN * (IZR (atomsOf t n eN) * molarSource m q n))).
    rewrite !sumZ_scale. rewrite !(C69_elements_conserved m t q) by auto. lra.
  - intros n Hn. unfold massSource. rewrite HW by auto. lra.
Qed.

(** one sub-step keeps the element content of the composition it starts from, and the fractions sum to one *)
Lemma substep_elements m t th rho tSub s s' d e : mechanism m t -> positiveMW th (m_ns m) -> substep m th rho tSub s = Some (s', d) ->
  elementContent t th (m_ns m) e (cY s') = elementContent t th (m_ns m) e (clampY (m_ns m) (cY s)).
Proof.
  intros HM HP H. unfold substep in H. destruct (stepRates m th rho s) as [q|] eqn:E; [|discriminate]. cbv zeta in H.
  apply f_equal with (f := fun o => match o with Some (a, _) => cY a | None => fun _ => 0 end) in H. cbv beta iota in H. cbn [cY] in H. rewrite <- H.
  unfold stepRates in E. apply rates_length in E. pose proof (C69_elements_conserved m t q e HM E) as C.
  unfold elementContent. rewrite (sumZ_ext _ _ _ (fun n => IZR (atomsOf t n e) * (clampY (m_ns m) (cY s) n / MW th n) + (tSub / rho) * (IZR (atomsOf t n e) * molarSource m q n))).
  - rewrite sumZ_plus, sumZ_scale, C. lra.
  - intros n Hn. unfold massSource. specialize (HP n Hn). unfold Rdiv. set (ir := / rho). assert (/ MW th n * MW th n = 1) by (field; lra).
    replace (IZR (atomsOf t n e) * ((clampY (m_ns m) (cY s) n + MW th n * molarSource m q n * ir * tSub) * / MW th n)) with
      (IZR (atomsOf t n e) * (clampY (m_ns m) (cY s) n * / MW th n) + IZR (atomsOf t n e) * molarSource m q n * ir * tSub * (/ MW th n * MW th n)) by ring.
    rewrite H0. ring.
Qed.
Lemma substep_sum m t th w rho tSub s s' d : mechanism m t -> atomicWeights t th (m_ns m) w -> substep m th rho tSub s = Some (s', d) -> sumZ 0 (m_ns m) (cY s') = 1.
Proof.
  intros HM HW H. unfold substep in H. destruct (stepRates m th rho s) as [q|] eqn:E; [|discriminate]. cbv zeta in H.
  apply f_equal with (f := fun o => match o with Some (a, _) => cY a | None => fun _ => 0 end) in H. cbv beta iota in H. cbn [cY] in H. rewrite <- H.
  unfold stepRates in E. apply rates_length in E. pose proof (C69_mass_conserved m t th w q HM HW E) as C.
  rewrite (sumZ_ext _ _ _ (fun n => clampY (m_ns m) (cY s) n + (tSub / rho) * massSource m th q n)) by (intros; unfold Rdiv; ring).
  destruct (checked m t HM) as (_ & _ & _ & _ & _ & N). rewrite sumZ_plus, sumZ_scale, C, clampY_sum by lia. lra.
Qed.
(** C69: one sub-step from a valid composition conserves every element and the total mass fraction *)
Theorem C69_substep : forall m t th w rho tSub s s' d, mechanism m t -> positiveMW th (m_ns m) -> atomicWeights t th (m_ns m) w ->
  validFracs (m_ns m) (cY s) -> substep m th rho tSub s = Some (s', d) ->
  sumZ 0 (m_ns m) (cY s') = 1 /\ forall e, elementContent t th (m_ns m) e (cY s') = elementContent t th (m_ns m) e (withLast (m_ns m) (cY s)).
Proof.
  intros m t th w rho tSub s s' d HM HP HW V H. split; [eapply substep_sum; eauto|]. intros e. rewrite (substep_elements _ _ _ _ _ _ _ _ e HM HP H).
  destruct (checked m t HM) as (_ & _ & _ & _ & _ & N).
  unfold elementContent. apply sumZ_ext. intros n Hn. rewrite clampY_id by (auto; lia). auto.
Qed.
Lemma content_ext t th nsp e Y Z : (forall n, (0 <= n < nsp)%Z -> Y n = Z n) -> elementContent t th nsp e Y = elementContent t th nsp e Z.
Proof. intros H. apply sumZ_ext. intros n Hn. rewrite H; auto. Qed.
(** no sub-step starts from a composition that has to be clipped *)
Definition unclipped (m : mech) (th : thtr) (rho tSub : R) (nSub : nat) (s : chemState * ((Z -> R) * R)) : Prop :=
  forall k s', (k < nSub)%nat -> substeps m th rho tSub k s = Some s' -> validFracs (m_ns m) (cY (fst s')).
Lemma substeps_elements m t th w rho tSub nSub s s' : mechanism m t -> positiveMW th (m_ns m) -> atomicWeights t th (m_ns m) w ->
  unclipped m th rho tSub (S nSub) s -> substeps m th rho tSub (S nSub) s = Some s' ->
  sumZ 0 (m_ns m) (cY (fst s')) = 1 /\ forall e, elementContent t th (m_ns m) e (cY (fst s')) = elementContent t th (m_ns m) e (withLast (m_ns m) (cY (fst s))).
Proof.
  intros HM HP HW. revert s. induction nSub as [|n IH]; intros s HU H.
  - cbn [substeps] in H. destruct (substep m th rho tSub (fst s)) as [[s1 d1]|] eqn:E; [|discriminate]. injection H as <-.
    exact (C69_substep _ _ _ _ _ _ _ _ _ HM HP HW (HU 0%nat s ltac:(lia) eq_refl) E).
  - change (substeps m th rho tSub (S (S n)) s) with (match substep m th rho tSub (fst s) with None => None | Some s1 => substeps m th rho tSub (S n) s1 end) in H.
    destruct (substep m th rho tSub (fst s)) as [[s1 d1]|] eqn:E; [|discriminate].
    assert (HU1: unclipped m th rho tSub (S n) (s1, d1)).
    { intros k s2 Hk H2. apply (HU (S k) s2); [lia|]. cbn [substeps]. rewrite E. auto. }
    destruct (IH _ HU1 H) as (A & B). split; auto. intros e. rewrite B.
    destruct (C69_substep _ _ _ _ _ _ _ _ _ HM HP HW (HU 0%nat s ltac:(lia) eq_refl) E) as (C & D). rewrite <- D.
    apply content_ext. intros i Hi. cbn [fst]. unfold withLast. destruct (Z.eqb_spec i (m_ns m - 1)); auto. subst i.
    replace (m_ns m) with (m_ns m - 1 + 1)%Z in C by lia. rewrite sumZ_snoc in C by lia. lra.
Qed.
Definition start (m : mech) (q : Z -> R) : chemState * ((Z -> R) * R) := (mkCS (fun n => if (n <? m_ns m - 1)%Z then q (5 + n)%Z else 0) (q 4%Z), (fun _ => 0, 0)).
(** from the element content of the final fractions to the increments of the partial densities *)
Lemma increments_content t th nsp e dQ dQ' Q Y Yf dt : (2 <= nsp)%Z -> dt <> 0 -> sumZ 0 nsp Yf = 1 ->
  (forall n, (0 <= n < nsp - 1)%Z -> Q (5 + n)%Z = Q 0%Z * Y n) ->
  (forall n, (0 <= n < nsp - 1)%Z -> dQ' (5 + n)%Z = dQ (5 + n)%Z + (Yf n * Q 0%Z - Q (5 + n)%Z) / dt) ->
  sumZ 0 nsp (fun n => IZR (atomsOf t n e) * (increments nsp dQ dQ' n / MW th n)) = Q 0%Z / dt * (elementContent t th nsp e Yf - elementContent t th nsp e (withLast nsp Y)).
Proof.
  intros HN Hd HS HQ HI.
  assert (EI: forall n, (0 <= n < nsp)%Z -> increments nsp dQ dQ' n = Q 0%Z / dt * (Yf n - withLast nsp Y n)).
  { intros n Hn. unfold increments, withLast. destruct (Z.eqb_spec n (nsp - 1)).
    - subst n. rewrite (sumZ_ext _ _ _ (fun m => Q 0%Z / dt * (Yf m - Y m))).
      2:{ intros m Hm. rewrite HI, HQ by auto. field. auto. }
      rewrite sumZ_scale, sumZ_minus. replace nsp with (nsp - 1 + 1)%Z in HS by lia. rewrite sumZ_snoc in HS by lia. replace (Yf (nsp - 1)%Z) with (1 - sumZ 0 (nsp - 1) Yf) by lra. field. auto.
    - rewrite HI, HQ by lia. field. auto. }
  unfold elementContent. rewrite <- sumZ_minus, <- sumZ_scale. apply sumZ_ext. intros n Hn. rewrite EI by auto. unfold Rdiv. ring.
Qed.
(** C69 at the kernel: for every number of sub-steps, as long as no intermediate composition has to be clipped, the increments added to
    the partial densities (with the remainder given to the last species) carry no net atoms of any element; the total density is untouched. *)
Theorem C69_cell : forall m t th w nSub dt q Q dQ dQ' om e, mechanism m t -> positiveMW th (m_ns m) -> atomicWeights t th (m_ns m) w -> dt <> 0 ->
  (forall n, (0 <= n < m_ns m - 1)%Z -> Q (5 + n)%Z = Q 0%Z * q (5 + n)%Z) ->
  unclipped m th (Q 0%Z) (dt / INR (S nSub)) (S nSub) (start m q) ->
  chemCell m th (S nSub) dt q Q dQ = Some (dQ', om) ->
  dQ' 0%Z = dQ 0%Z /\ sumZ 0 (m_ns m) (fun n => IZR (atomsOf t n e) * (increments (m_ns m) dQ dQ' n / MW th n)) = 0.
Proof.
  intros m t th w nSub dt q Q dQ dQ' om e HM HP HW Hd HQ HU H. destruct (checked m t HM) as (_ & _ & _ & _ & _ & N).
  unfold chemCell in H. fold (start m q) in H. destruct (substeps m th (Q 0%Z) (dt / INR (S nSub)) (S nSub) (start m q)) as [[s [dY dT]]|] eqn:E; [|discriminate].
  apply f_equal with (f := fun o => match o with Some (a, _) => a | None => fun _ => 0 end) in H. cbv beta iota in H. subst dQ'. split; [reflexivity|].
  destruct (substeps_elements _ _ _ _ _ _ _ _ _ HM HP HW HU E) as (A & B). cbn [fst] in A, B.
  rewrite (increments_content t th (m_ns m) e dQ _ Q (fun n => q (5 + n)%Z) (cY s) dt); auto.
  - rewrite B. replace (elementContent t th (m_ns m) e (withLast (m_ns m) (cY (fst (start m q))))) with (elementContent t th (m_ns m) e (withLast (m_ns m) (fun n => q (5 + n)%Z))); [lra|].
    apply content_ext. apply withLast_ext. intros n Hn. cbn [start fst cY]. destruct (Z.ltb_spec n (m_ns m - 1)); [auto|lia].
  - intros n Hn. cbv beta. destruct (Z.leb_spec 5 (5 + n)); [|lia]. destruct (Z.ltb_spec (5 + n) (5 + (m_ns m - 1))); [|lia]. cbn [andb].
    replace (5 + n - 5)%Z with n by lia. auto.
Qed.
(** with one sub-step the only condition is that the incoming composition is valid *)
Theorem C69_cell_one_substep : forall m t th w dt q Q dQ dQ' om e, mechanism m t -> positiveMW th (m_ns m) -> atomicWeights t th (m_ns m) w -> dt <> 0 ->
  validFracs (m_ns m) (fun n => q (5 + n)%Z) -> (forall n, (0 <= n < m_ns m - 1)%Z -> Q (5 + n)%Z = Q 0%Z * q (5 + n)%Z) ->
  chemCell m th 1 dt q Q dQ = Some (dQ', om) ->
  dQ' 0%Z = dQ 0%Z /\ sumZ 0 (m_ns m) (fun n => IZR (atomsOf t n e) * (increments (m_ns m) dQ dQ' n / MW th n)) = 0.
Proof.
  intros m t th w dt q Q dQ dQ' om e HM HP HW Hd V HQ H. eapply C69_cell; eauto. intros k s' Hk Hs. assert (k = 0)%nat by lia. subst k. cbn [substeps] in Hs. injection Hs as <-.
  apply (validFracs_ext _ (fun n => q (5 + n)%Z)); auto. intros n Hn. cbn [start fst cY]. destruct (Z.ltb_spec n (m_ns m - 1)); [auto|lia].
Qed.
