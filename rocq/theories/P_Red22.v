(** The reduced ethylene mechanism (chem_C2H4_Air_Red22): quasi-steady species (C138), elements and mass (C139), absent species (C140), direction of the reactions (C141). *)
From Coq Require Import Reals ZArith List Bool Arith Lra Lia.
From Verif Require Import M_Halo S_Sum L_Sum M_Thermo S_Thermo L_Thermo M_Chem S_Chem L_Chem P_Chem M_Red22 M_Red22_Tables S_Red22 L_Elim L_Red22a L_Red22b L_Red22c L_Red22d L_Red22e L_Red22f.
Import ListNotations.
Open Scope R_scope.

Lemma netRates_inv0 m p T Y XQ rop : netRates m p T Y = Some (XQ, rop) ->
  exists rs, rop = rop22 m rs XQ /\ steady22 m (rfOf m rs) (rbOf m rs) = Some XQ.
Proof.
  intros H. unfold netRates in H. cbv zeta in H. destruct (rates22 _ _ _ _ _) as [rs|]; [|discriminate]. destruct (steady22 _ _ _) as [X|] eqn:E; [|discriminate].
  assert (A : X = XQ) by congruence. assert (B : rop22 m rs X = rop) by congruence. subst. now exists rs.
Qed.
Lemma netRates_inv p T Y XQ rop : netRates red22 p T Y = Some (XQ, rop) ->
  exists rs, rop = rop22 red22 rs XQ /\ steady22 red22 (rfOf red22 rs) (rbOf red22 rs) = Some XQ.
Proof. exact (netRates_inv0 red22 p T Y XQ rop). Qed.
(** C138: whenever the kernel computes its rates, the ten steady species are made exactly as fast as they are used, over all 206 reactions *)
Theorem C138_steady_state : forall p T Y XQ rop s, netRates red22 p T Y = Some (XQ, rop) -> In s steady -> production red22 rop s = 0.
Proof. intros p T Y XQ rop s H S. destruct (netRates_inv _ _ _ _ _ H) as (rs & -> & E). now apply steady_zero. Qed.
(** C138: and with oxygen present it always does: no division by zero and no logarithm of a non-positive number, in any of the 206 rates or the elimination,
    and the concentrations of the steady species come out non-negative *)
Theorem C138_solvable : forall p T Y, 0 < p -> 1 <= T -> (forall n, (0 <= n < 22)%Z -> 0 <= Y n) -> 0 < oxygen Y ->
  exists XQ rop, netRates red22 p T Y = Some (XQ, rop) /\ forall k, (k < length steady)%nat -> 0 <= XQ k.
Proof. intros p T Y HP HT HY HO. destruct (netRates_defined p T Y HP HT HY HO) as (XQ & rs & E & N & _). exists XQ, (rop22 red22 rs XQ). split; [exact E|exact N]. Qed.

(** C139: the molar sources of the transported species carry no net atoms of any element *)
(** sums over lists of species *)
Lemma sumZ_sumL n f : sumZ 0 (Z.of_nat n) f = sumL (seq 0 n) (fun i => f (Z.of_nat i)).
Proof.
  induction n as [|n IH]; [reflexivity|]. rewrite Nat2Z.inj_succ, <- Z.add_1_r, sumZ_snoc by lia. rewrite IH, seq_S, sumL_app. cbn [Nat.add]. rewrite sumL_cons, sumL_nil. lra.
Qed.
Lemma atoms_kept s e : (s < 22)%nat -> atomsOf red22_formulas (Z.of_nat s) e = atoms (nth s kept 0%nat) e.
Proof.
  intros H. unfold atomsOf, atoms, red22_formulas. rewrite Nat2Z.id.
  rewrite (nth_indep _ [] ((fun i => nth i skeletal_formulas []) 0%nat)) by (rewrite map_length; exact H). now rewrite (map_nth (fun i => nth i skeletal_formulas [])).
Qed.
Theorem C139_elements_conserved : forall p T Y XQ rop e, netRates red22 p T Y = Some (XQ, rop) ->
  sumZ 0 21 (fun n => IZR (atomsOf red22_formulas n e) * molar22 red22 rop (Z.to_nat n)) = 0.
Proof.
  intros p T Y XQ rop e H. change 21%Z with (Z.of_nat 21). rewrite sumZ_sumL. rewrite <- (molar_atoms rop e); [|intros s S; eapply C138_steady_state; eauto].
  apply sumL_ext. intros s I. apply in_seq in I. rewrite atoms_kept, Nat2Z.id by lia. reflexivity.
Qed.
Lemma mass_elements p T Y XQ rop th e : positiveMW th 22 -> netRates red22 p T Y = Some (XQ, rop) ->
  sumZ 0 22 (fun n => IZR (atomsOf red22_formulas n e) * (mass22 red22 th rop n / MW th n)) = 0.
Proof.
  intros HP H. change 22%Z with (21 + 1)%Z. rewrite sumZ_snoc by lia. unfold mass22 at 2. change (21 <? 21)%Z with false. cbv iota.
  rewrite (sumZ_ext _ _ _ (fun n => 1000 * (IZR (atomsOf red22_formulas n e) * molar22 red22 rop (Z.to_nat n)))).
  - rewrite sumZ_scale, (C139_elements_conserved p T Y XQ rop e H). unfold Rdiv. lra.
  - intros n Hn. unfold mass22. destruct (Z.ltb_spec n 21); [|lia]. assert (0 < MW th n) by (apply HP; lia). field. lra.
Qed.
Theorem C139_mass_conserved : forall p T Y XQ rop th w, positiveMW th 22 -> atomicWeights red22_formulas th 22 w -> netRates red22 p T Y = Some (XQ, rop) ->
  sumZ 0 22 (mass22 red22 th rop) = 0.
Proof.
  intros p T Y XQ rop th w HP HW H. set (g e := fun n => IZR (atomsOf red22_formulas n e) * (mass22 red22 th rop n / MW th n)).
  rewrite (sumZ_ext _ _ _ (fun n => w eH * g eH n + (w eC * g eC n + (w eO * g eO n + (w eN * g eN n + w eAr * g eAr n))))).
  - rewrite (sumZ_plus 0 22 (fun n => w eH * g eH n)), (sumZ_plus 0 22 (fun n => w eC * g eC n)), (sumZ_plus 0 22 (fun n => w eO * g eO n)), (sumZ_plus 0 22 (fun n => w eN * g eN n)), !sumZ_scale.
    unfold g. rewrite !(mass_elements p T Y XQ rop th _ HP H). lra.
  - intros n Hn. pose proof (HP n Hn) as P. unfold g. transitivity (mass22 red22 th rop n / MW th n * MW th n); [field; lra|]. rewrite (HW n Hn) at 2. ring.
Qed.
(** C139: one sub-step from a valid composition conserves every element and the total mass fraction *)
Lemma substep22_inv0 m th p rho tSub s s' d : substep22 m th p rho tSub s = Some (s', d) ->
  exists XQ rop, netRates m p (cT s) (clampY 22 (cY s)) = Some (XQ, rop) /\ d = mass22 m th rop /\
    forall n, (0 <= n < 22)%Z -> cY s' n = clampY 22 (cY s) n + tSub / rho * mass22 m th rop n.
Proof.
  intros H. unfold substep22 in H. cbv zeta in H. destruct (netRates _ _ _ _) as [[XQ rop]|] eqn:E; [|discriminate]. exists XQ, rop. split; [reflexivity|].
  split; [exact (eq_sym (f_equal (fun o => match o with Some (_, x) => x | None => fun _ => 0 end) H))|].
  apply f_equal with (f := fun o => match o with Some (a, _) => cY a | None => fun _ => 0 end) in H. cbv beta iota in H. cbn [cY] in H. rewrite <- H.
  intros n Hn. unfold mass22. destruct (Z.ltb_spec n 21); [unfold Rdiv; ring|lra].
Qed.
Lemma substep22_inv th p rho tSub s s' d : substep22 red22 th p rho tSub s = Some (s', d) ->
  exists XQ rop, netRates red22 p (cT s) (clampY 22 (cY s)) = Some (XQ, rop) /\ d = mass22 red22 th rop /\
    forall n, (0 <= n < 22)%Z -> cY s' n = clampY 22 (cY s) n + tSub / rho * mass22 red22 th rop n.
Proof. exact (substep22_inv0 red22 th p rho tSub s s' d). Qed.
Theorem C139_substep : forall th w p rho tSub s s' d, positiveMW th 22 -> atomicWeights red22_formulas th 22 w -> validFracs 22 (cY s) ->
  substep22 red22 th p rho tSub s = Some (s', d) ->
  sumZ 0 22 (cY s') = 1 /\ forall e, elementContent red22_formulas th 22 e (cY s') = elementContent red22_formulas th 22 e (withLast 22 (cY s)).
Proof.
  intros th w p rho tSub s s' d HP HW V H. destruct (substep22_inv _ _ _ _ _ _ _ H) as (XQ & rop & E & _ & F). split.
  - rewrite (sumZ_ext _ _ _ _ F), sumZ_plus, sumZ_scale, (C139_mass_conserved _ _ _ _ _ th w HP HW E), clampY_sum by lia. lra.
  - intros e. unfold elementContent.
    rewrite (sumZ_ext _ _ _ (fun n => IZR (atomsOf red22_formulas n e) * (withLast 22 (cY s) n / MW th n) + tSub / rho * (IZR (atomsOf red22_formulas n e) * (mass22 red22 th rop n / MW th n)))).
    + rewrite sumZ_plus, sumZ_scale, (mass_elements _ _ _ _ _ th e HP E). lra.
    + intros n Hn. rewrite F, clampY_id by (auto; lia). pose proof (HP n Hn). unfold Rdiv. ring.
Qed.
Definition start22 (q : Z -> R) : chemState * (Z -> R) := (mkCS (fun n => if (n <? 21)%Z then q (5 + n)%Z else 0) (q 4%Z), (fun _ => 0)).
(** no sub-step starts from a composition that has to be clipped *)
Definition unclipped22 (th : thtr) (p rho tSub : R) (nSub : nat) (s : chemState * (Z -> R)) : Prop :=
  forall k s', (k < nSub)%nat -> substeps22 red22 th p rho tSub k s = Some s' -> validFracs 22 (cY (fst s')).
Lemma substeps22_S m th p rho tSub n s : substeps22 m th p rho tSub (S n) s = match substep22 m th p rho tSub (fst s) with None => None | Some s1 => substeps22 m th p rho tSub n s1 end.
Proof. reflexivity. Qed.
Lemma substeps22_one m th p rho tSub s : substeps22 m th p rho tSub 1 s = substep22 m th p rho tSub (fst s).
Proof. cbn [substeps22]. destruct (substep22 _ _ _ _ _ _); reflexivity. Qed.
Lemma some_inj {A} (x y : A) : Some x = Some y -> x = y.
Proof. intros E. now injection E. Qed.
Lemma substeps22_elements th w p rho tSub nSub s s' : positiveMW th 22 -> atomicWeights red22_formulas th 22 w -> unclipped22 th p rho tSub (S nSub) s ->
  substeps22 red22 th p rho tSub (S nSub) s = Some s' ->
  sumZ 0 22 (cY (fst s')) = 1 /\ forall e, elementContent red22_formulas th 22 e (cY (fst s')) = elementContent red22_formulas th 22 e (withLast 22 (cY (fst s))).
Proof.
  intros HP HW. revert s. induction nSub as [|n IH]; intros s HU H.
  - rewrite substeps22_one in H. destruct s' as [s1 d1]. rename H into E. cbn [fst].
    exact (C139_substep _ _ _ _ _ _ _ _ HP HW (HU 0%nat s ltac:(lia) eq_refl) E).
  - rewrite substeps22_S in H.
    destruct (substep22 red22 th p rho tSub (fst s)) as [[s1 d1]|] eqn:E; [|discriminate].
    assert (HU1 : unclipped22 th p rho tSub (S n) (s1, d1)).
    { intros k s2 Hk H2. apply (HU (S k) s2); [lia|]. rewrite substeps22_S, E. auto. }
    destruct (IH _ HU1 H) as (A & B). split; auto. intros e. rewrite B.
    destruct (C139_substep _ _ _ _ _ _ _ _ HP HW (HU 0%nat s ltac:(lia) eq_refl) E) as (C & D0). rewrite <- D0.
    apply content_ext. intros i Hi. cbn [fst]. unfold withLast. destruct (Z.eqb_spec i (22 - 1)); auto. subst i.
    change 22%Z with (21 + 1)%Z in C. rewrite sumZ_snoc in C by lia. change (22 - 1)%Z with 21%Z. lra.
Qed.
Lemma cell22_inv m th nSub dt q Q dQ dQ' om : chemCell22 m th nSub dt q Q dQ = Some (dQ', om) ->
  exists s dY, substeps22 m th (q 0%Z * 10) (Q 0%Z) (dt / INR nSub) nSub (start22 q) = Some (s, dY) /\
    dQ' = fun l => if (5 <=? l)%Z && (l <? 26)%Z then dQ l + (cY s (l - 5)%Z * Q 0%Z - Q l) / dt else dQ l.
Proof.
  intros H. unfold chemCell22 in H. fold (start22 q) in H. destruct (substeps22 _ _ _ _ _ _ _) as [[s dY]|] eqn:E; [|discriminate]. exists s, dY. split; [reflexivity|].
  apply f_equal with (f := fun o => match o with Some (a, _) => a | None => fun _ => 0 end) in H. symmetry. exact H.
Qed.
(** C139 at the kernel, for every number of sub-steps: unless an intermediate composition has to be clipped, the increments of the partial densities
    (the remainder given to N2) carry no net atoms of any element, and the total density is untouched *)
Theorem C139_cell : forall th w nSub dt q Q dQ dQ' om e, positiveMW th 22 -> atomicWeights red22_formulas th 22 w -> dt <> 0 ->
  (forall n, (0 <= n < 21)%Z -> Q (5 + n)%Z = Q 0%Z * q (5 + n)%Z) ->
  unclipped22 th (q 0%Z * 10) (Q 0%Z) (dt / INR (S nSub)) (S nSub) (start22 q) ->
  chemCell22 red22 th (S nSub) dt q Q dQ = Some (dQ', om) ->
  dQ' 0%Z = dQ 0%Z /\ sumZ 0 22 (fun n => IZR (atomsOf red22_formulas n e) * (increments 22 dQ dQ' n / MW th n)) = 0.
Proof.
  intros th w nSub dt q Q dQ dQ' om e HP HW Hd HQ HU H.
  destruct (cell22_inv _ _ _ _ _ _ _ _ _ H) as (s & dY & E & H'). clear H. subst dQ'. split; [reflexivity|].
  destruct (substeps22_elements _ _ _ _ _ _ _ _ HP HW HU E) as (A & B). cbn [fst] in A, B.
  rewrite (increments_content red22_formulas th 22 e dQ _ Q (fun n => q (5 + n)%Z) (cY s) dt); auto; [|lia|].
  - rewrite B. replace (elementContent red22_formulas th 22 e (withLast 22 (cY (fst (start22 q))))) with (elementContent red22_formulas th 22 e (withLast 22 (fun n => q (5 + n)%Z))); [lra|].
    apply content_ext. apply withLast_ext. intros n Hn. cbn [start22 fst cY]. destruct (Z.ltb_spec n 21); [auto|lia].
  - intros n Hn. cbv beta. destruct (Z.leb_spec 5 (5 + n)); [|lia]. destruct (Z.ltb_spec (5 + n) 26); [|lia]. cbn [andb].
    replace (5 + n - 5)%Z with n by lia. auto.
Qed.

(** C140: a transported species that is absent is not consumed *)
Definition carries (s : nat) : bool := forallb (fun r => let c := change r (nth s kept 0%nat) in
  ((0 <=? c)%Z || existsb (Nat.eqb s) (rcF r)) && ((c <=? 0)%Z || existsb (Nat.eqb s) (rcB r))) red22_reactions.
Lemma carries_all : forallb carries (seq 0 22) = true.
Proof. vm_compute. reflexivity. Qed.
Lemma prod_zero cs l s : forall a, cs s = 0 -> existsb (Nat.eqb s) l = true -> fold_left (fun x i => x * cs i) l a = 0.
Proof.
  intros a C H. apply existsb_exists in H as (i & I & E). apply Nat.eqb_eq in E. subst i. revert a.
  assert (Z : forall l, fold_left (fun x i => x * cs i) l 0 = 0) by (clear; intros l; induction l as [|i l IH]; [reflexivity|]; cbn [fold_left]; rewrite Rmult_0_l; exact IH).
  induction l as [|j l IH]; intros a; [easy|]. cbn [fold_left]. destruct I as [-> |I]; [rewrite C, Rmult_0_r; apply Z|now apply IH].
Qed.
Lemma rates22_zero T cs eg s : cs s = 0 -> forall rs ks l n, rates22 T cs eg rs ks = Some l -> (n < length rs)%nat -> length ks = length rs ->
  (existsb (Nat.eqb s) (rcF (nth n rs rx0)) = true -> fst (nth n l (0, 0)) = 0) /\ (existsb (Nat.eqb s) (rcB (nth n rs rx0)) = true -> snd (nth n l (0, 0)) = 0).
Proof.
  intros C. induction rs as [|r rs IH]; intros [|k ks] l n H N L; try discriminate L; [cbn in N; lia|].
  cbn [rates22] in H. destruct (rate22 T cs eg r k) as [x|] eqn:E; [|discriminate]. destruct (rates22 T cs eg rs ks) as [l'|] eqn:E'; [|discriminate].
  assert (l = x :: l') by congruence. subst l. destruct n as [|n]; cbn [nth].
  - unfold rate22 in E. cbv zeta in E.
    assert (G : exists y z, x = (fold_left (fun s i => s * cs i) (rcF r) y, fold_left (fun s i => s * cs i) (rcB r) z)).
    { destruct (rMod r) as [|tb|tb a b c f]; [| |destruct (pcor _ _ _) as [pc|]; [|discriminate]]; eexists; eexists; symmetry; apply (f_equal (fun o => match o with Some v => v | None => x end) E). }
    destruct G as (y & z & ->). cbn [fst snd]. split; intros M; eapply prod_zero; eauto.
  - apply (IH ks l' n E'); cbn in N, L; lia.
Qed.
Lemma some_pair {A B} (o : option (A * B)) a b a' b' : o = Some (a, b) -> o = Some (a', b') -> a = a' /\ b = b'.
Proof. intros -> E. injection E as -> ->. split; reflexivity. Qed.
Theorem C140_absent_not_consumed : forall p T Y XQ rop n, 0 < p -> 1 <= T -> (forall n, (0 <= n < 22)%Z -> 0 <= Y n) -> 0 < oxygen Y ->
  netRates red22 p T Y = Some (XQ, rop) -> (0 <= n < 21)%Z -> Y n = 0 -> 0 <= molar22 red22 rop (Z.to_nat n).
Proof.
  intros p T Y XQ rop n HP HT HY HO E Hn H0. destruct (netRates_defined p T Y HP HT HY HO) as (XQ' & rs & E' & NX & _ & ER & NN).
  destruct (some_pair _ _ _ _ _ E' E) as [EX EP]. subst XQ' rop. clear E E'.
  set (s := Z.to_nat n). assert (S0 : (s < 21)%nat) by (unfold s; lia). rewrite molar_production, production_sum by exact S0.
  assert (CS : cs22 red22 p T Y s = 0). { unfold cs22, s. rewrite Z2Nat.id by lia. rewrite H0. unfold Rdiv. rewrite !Rmult_0_l. reflexivity. }
  pose proof mech_ok as MO. apply andb_prop in MO as [MK _]. destruct (kvals_good red22_reactions T MK) as [KL _].
  pose proof carries_all as CA. rewrite forallb_forall in CA. specialize (CA s ltac:(apply in_seq; lia)). unfold carries in CA. rewrite forallb_forall in CA.
  assert (XP : forall k, inb k [0;1;2;3;4;5;6;7;8;9]%nat = true -> 0 <= XQ k) by (intros k K; apply inb_iff in K; apply NX; cbn [In] in K; lia).
  assert (XF : forallb (fun r => match rxF r with Some k => inb k [0;1;2;3;4;5;6;7;8;9]%nat | None => true end && match rxB r with Some k => inb k [0;1;2;3;4;5;6;7;8;9]%nat | None => true end) red22_reactions = true) by (vm_compute; reflexivity).
  rewrite forallb_forall in XF.
  apply sumL_nonneg. intros i I. apply in_seq in I. assert (IR : In (rxn i) red22_reactions) by (apply nth_In; exact (proj2 I)).
  specialize (CA _ IR). cbv zeta in CA. apply andb_prop in CA as [C1 C2]. specialize (XF _ IR). apply andb_prop in XF as [X1 X2].
  destruct (rates22_zero _ _ _ s CS _ _ _ i ER (proj2 I) KL) as [Z1 Z2]. fold (rxn i) in Z1, Z2. destruct (NN i) as [NF NB].
  rewrite rop_flux. unfold flux. cbn [fst snd].
  assert (F1 : 0 <= xfac (rxF (rxn i)) XQ) by (destruct (rxF (rxn i)); cbn [xfac]; [now apply XP|lra]).
  assert (F2 : 0 <= xfac (rxB (rxn i)) XQ) by (destruct (rxB (rxn i)); cbn [xfac]; [now apply XP|lra]).
  set (c := change (rxn i) (nth s kept 0%nat)) in *.
  assert (A1 : 0 <= IZR c * (rfOf red22 rs i * xfac (rxF (rxn i)) XQ)).
  { apply orb_prop in C1 as [C1|C1]; [apply Z.leb_le, IZR_le in C1; apply Rmult_le_pos; [exact C1|now apply Rmult_le_pos]|].
    assert (ZZ : rfOf red22 rs i = 0) by (unfold rfOf; destruct (existsb (Nat.eqb i) (mZeroF red22)); [reflexivity|exact (Z1 C1)]). rewrite ZZ. lra. }
  assert (A2 : 0 <= - IZR c * (rbOf red22 rs i * xfac (rxB (rxn i)) XQ)).
  { apply orb_prop in C2 as [C2|C2]; [apply Z.leb_le, IZR_le in C2; apply Rmult_le_pos; [lra|now apply Rmult_le_pos]|].
    assert (ZZ : rbOf red22 rs i = 0) by (unfold rbOf; destruct (existsb (Nat.eqb i) (mZeroB red22)); [reflexivity|exact (Z2 C2)]). rewrite ZZ. lra. }
  lra.
Qed.

(** C141: when every transported species is present the steady species are present too *)
Definition fed (r : row22) : bool := existsb (fun jt => (fst jt =? 0)%nat && existsb (fun t => negb (zeroed t) && (snd t <? 206)%nat) (snd jt)) (rCols r).
Lemma fed_all : forallb fed red22_rows = true.
Proof. vm_compute. reflexivity. Qed.
Lemma netRates_positive p T Y XQ rop : 0 < p -> 1 <= T -> (forall n, (0 <= n < 22)%Z -> 0 < Y n) -> netRates red22 p T Y = Some (XQ, rop) ->
  exists rs, rop = rop22 red22 rs XQ /\ (forall i, (i < 22)%nat -> 0 < cs22 red22 p T Y i) /\ (forall k, (k < 10)%nat -> 0 < XQ k) /\
    forall n, (n < 206)%nat -> 0 < fst (nth n rs (0, 0)) /\ 0 < snd (nth n rs (0, 0)) /\ ln (fst (nth n rs (0, 0))) - ln (snd (nth n rs (0, 0))) = lnRatio (cs22 red22 p T Y) (eg22 red22 T) T (rxn n).
Proof.
  intros HP HT HY H. assert (HN : forall n, (0 <= n < 22)%Z -> 0 <= Y n) by (intros; left; auto).
  destruct (netRates_defined p T Y HP HT HN (HY 3%Z ltac:(lia))) as (XQ' & rs & E' & NX & ST & ER & NN).
  destruct (some_pair _ _ _ _ _ E' H) as [EX EP]. subst XQ'. clear E' H. exists rs. split; [now symmetry|].
  set (c := fun i => Y (Z.of_nat i) / decR (nth i (mW red22) (D 1 0))).
  assert (W : forall i, (i < 22)%nat -> 0 < decR (nth i (mW red22) (D 1 0))).
  { intros i I. apply pos_decR. assert (C : forallb pos red22_W = true) by (vm_compute; reflexivity). rewrite forallb_forall in C. apply C. apply nth_In. exact I. }
  assert (C0 : forall i, (i < 22)%nat -> 0 < c i) by (intros i I; apply Rdiv_lt_0_compat; [apply HY; lia|now apply W]).
  assert (S0 : 0 < sumTo 22 c).
  { rewrite sumTo_sumL, (sumL_take 3) by (try apply seq_NoDup; apply in_seq; lia). apply Rplus_lt_le_0_compat; [apply C0; lia|]. apply sumL_nonneg. intros i I. apply in_rm in I as [I _]. apply in_seq in I. left. apply C0. lia. }
  assert (CS : forall i, (i < 22)%nat -> 0 < cs22 red22 p T Y i).
  { intros i I. unfold cs22. cbv zeta. fold c. apply Rmult_lt_0_compat; [now apply C0|]. apply Rdiv_lt_0_compat; [exact HP|].
    apply Rmult_lt_0_compat; [apply Rmult_lt_0_compat; lra|]. apply Rmult_lt_0_compat; [|apply pow_lt; lra]. apply Rdiv_lt_0_compat; [lra|apply pow_lt; lra]. }
  pose proof mech_ok as MO. apply andb_prop in MO as [MK MR]. destruct (kvals_good red22_reactions T MK) as [KL KP].
  assert (RP : forall n, (n < 206)%nat -> 0 < fst (nth n rs (0, 0)) /\ 0 < snd (nth n rs (0, 0)) /\ ln (fst (nth n rs (0, 0))) - ln (snd (nth n rs (0, 0))) = lnRatio (cs22 red22 p T Y) (eg22 red22 T) T (rxn n)).
  { intros n N. exact (rates_ratio _ (eg22 red22 T) T HT CS (fun i => exp_pos _) red22_reactions _ rs n (fun r R0 => R0) KL KP MR ER N). }
  split; [exact CS|]. split; [|exact RP]. intros k K.
  assert (IK : In (S k) acts) by (unfold acts; cbn; lia). apply in_map_iff in IK as (r & RI & R0).
  pose proof (steady_balanced _ _ XQ ST r R0) as B. unfold L_Red22b.balanced in B. rewrite RI in B. cbn [Xe] in B.
  assert (TN : forall ts, 0 <= sum22 (rfOf red22 rs) (rbOf red22 rs) ts).
  { intros ts. rewrite sum22_sumT. unfold sumT. induction ts as [|t ts IH]; cbn [fold_right]; [lra|]. assert (0 <= term22 (rfOf red22 rs) (rbOf red22 rs) t) by (destruct t as [[|] n]; unfold term22; cbn [fst snd]; apply NN). lra. }
  pose proof fed_all as FA. rewrite forallb_forall in FA. specialize (FA r R0). unfold fed in FA. apply existsb_exists in FA as ([j ts] & IJ & FA). cbn [fst snd] in FA. apply andb_prop in FA as [J0 FA]. apply Nat.eqb_eq in J0. subst j.
  assert (TS : 0 < sum22 (rfOf red22 rs) (rbOf red22 rs) ts).
  { apply existsb_exists in FA as (t & IT & FA). apply andb_prop in FA as [ZT LT]. apply negb_true_iff in ZT. apply Nat.ltb_lt in LT. rewrite sum22_sumT.
    assert (TP : 0 < term22 (rfOf red22 rs) (rbOf red22 rs) t).
    { destruct (RP _ LT) as (P1 & P2 & _). destruct t as [[|] n]; unfold zeroed, term22 in *; cbn [fst snd] in *; unfold rfOf, rbOf; cbn [mZeroF mZeroB red22].
      - fold (inb n red22_zeroF). now rewrite ZT. - fold (inb n red22_zeroB). now rewrite ZT. }
    assert (TN' : forall l, 0 <= sumT l (term22 (rfOf red22 rs) (rbOf red22 rs))) by (intros l; rewrite <- sum22_sumT; apply TN).
    clear - IT TP TN'. induction ts as [|a ts IH]; [easy|]. change (sumT (a :: ts) (term22 (rfOf red22 rs) (rbOf red22 rs))) with (term22 (rfOf red22 rs) (rbOf red22 rs) a + sumT ts (term22 (rfOf red22 rs) (rbOf red22 rs))).
    destruct IT as [-> |IT]; [pose proof (TN' ts); lra|]. pose proof (IH IT). pose proof (TN' [a]) as A. change (sumT [a] (term22 (rfOf red22 rs) (rbOf red22 rs))) with (term22 (rfOf red22 rs) (rbOf red22 rs) a + 0) in A. lra. }
  assert (RHS : 0 < fold_right (fun jt s => sum22 (rfOf red22 rs) (rbOf red22 rs) (snd jt) * Xe XQ (fst jt) + s) 0 (rCols r)).
  { destruct tok as (_ & _ & _ & _ & _ & NC & _). destruct (NC r R0) as [_ NJ].
    assert (XN : forall jt, In jt (rCols r) -> 0 <= Xe XQ (fst jt)).
    { intros jt I. assert (J : In (fst jt) (0%nat :: rm (rId r) acts)) by (apply NJ; now apply in_map). destruct (fst jt) as [|q]; cbn [Xe]; [lra|]. apply NX. destruct J as [J|J]; [discriminate|]. apply in_rm in J as [J _]. unfold acts in J. cbn in J. lia. }
    clear - IJ TS TN XN. induction (rCols r) as [|a l IH]; [easy|]. cbn [fold_right].
    assert (LN : 0 <= fold_right (fun jt s => sum22 (rfOf red22 rs) (rbOf red22 rs) (snd jt) * Xe XQ (fst jt) + s) 0 l).
    { clear IH IJ. induction l as [|b l IH]; cbn [fold_right]; [lra|]. apply Rplus_le_le_0_compat; [apply Rmult_le_pos; [apply TN|apply XN; right; now left]|]. apply IH. intros jt [->|I]; apply XN; [now left|right; now right]. }
    destruct IJ as [-> |IJ]; [cbn [fst snd Xe]; lra|]. assert (0 <= sum22 (rfOf red22 rs) (rbOf red22 rs) (snd a) * Xe XQ (fst a)) by (apply Rmult_le_pos; [apply TN|apply XN; now left]).
    specialize (IH IJ (fun jt I => XN jt (or_intror I))). lra. }
  rewrite <- B in RHS. pose proof (NX k K) as X0. destruct X0 as [X0|X0]; [exact X0|]. rewrite <- X0, Rmult_0_r in RHS. lra.
Qed.
(** C141: every reaction that is kept in both directions runs down its Gibbs energy, and stands still exactly at equilibrium *)
Theorem C141_direction : forall p T Y XQ rop n, 0 < p -> 1 <= T -> (forall i, (0 <= i < 22)%Z -> 0 < Y i) -> netRates red22 p T Y = Some (XQ, rop) ->
  (n < length (mReacs red22))%nat -> ~ In n (mZeroF red22) -> ~ In n (mZeroB red22) ->
  let mu := potential22 red22 T (concentration (cs22 red22 p T Y) XQ) in let dG := gibbsChange (nth n (mReacs red22) rx0) mu in
  (dG < 0 <-> 0 < rop n) /\ (dG = 0 <-> rop n = 0) /\ (0 < dG <-> rop n < 0).
Proof.
  intros p T Y XQ rop n HP HT HY H N ZF ZB mu dG. destruct (netRates_positive p T Y XQ rop HP HT HY H) as (rs & -> & CS & XP & RP).
  change (length (mReacs red22)) with 206%nat in N. destruct (RP n N) as (P1 & P2 & LR).
  assert (MA : massAction (rxn n) = true).
  { pose proof mass_action_ok as M. rewrite forallb_forall in M. specialize (M n ltac:(apply in_seq; lia)). apply orb_prop in M as [M|M]; [|exact M]. exfalso.
    apply negb_true_iff in M. unfold bothWays in M. apply inb_false in ZF, ZB. cbn [mZeroF mZeroB red22] in ZF, ZB. rewrite ZF, ZB in M. discriminate. }
  pose proof (ratio_gibbs (cs22 red22 p T Y) XQ T (rxn n) HT CS XP MA) as RG. fold mu in RG. change (gibbsChange (rxn n) mu) with dG in RG.
  assert (XL : forall x, xLt x = true -> 0 < xfac x XQ) by (intros [k|] K; cbn [xfac xLt] in *; [apply XP; now apply Nat.ltb_lt|lra]).
  unfold massAction in MA. apply andb_prop in MA as [MA X2]. apply andb_prop in MA as [_ X1]. apply XL in X1, X2.
  assert (EF : rop22 red22 rs XQ n = fst (nth n rs (0, 0)) * xfac (rxF (rxn n)) XQ - snd (nth n rs (0, 0)) * xfac (rxB (rxn n)) XQ).
  { rewrite rop_flux. unfold flux. cbn [fst snd]. unfold rfOf, rbOf. apply inb_false in ZF, ZB. unfold inb in ZF, ZB. rewrite ZF, ZB. reflexivity. }
  rewrite EF. set (f := fst (nth n rs (0, 0)) * xfac (rxF (rxn n)) XQ). set (b := snd (nth n rs (0, 0)) * xfac (rxB (rxn n)) XQ).
  assert (F0 : 0 < f) by (now apply Rmult_lt_0_compat). assert (B0 : 0 < b) by (now apply Rmult_lt_0_compat).
  assert (LL : ln f - ln b = - dG) by (unfold f, b; rewrite !ln_mult by auto; lra). clearbody f b. clear - F0 B0 LL.
  destruct (Rtotal_order f b) as [L|[-> |L]].
  - pose proof (ln_increasing f b F0 L). repeat split; intros; lra.
  - repeat split; intros; lra.
  - pose proof (ln_increasing b f B0 L). repeat split; intros; lra.
Qed.
Theorem C141_steady_present : forall p T Y XQ rop, 0 < p -> 1 <= T -> (forall i, (0 <= i < 22)%Z -> 0 < Y i) -> netRates red22 p T Y = Some (XQ, rop) ->
  forall k, (k < length steady)%nat -> 0 < XQ k.
Proof. intros p T Y XQ rop HP HT HY H k K. destruct (netRates_positive p T Y XQ rop HP HT HY H) as (rs & _ & _ & XP & _). now apply XP. Qed.

(** the hypotheses are met: stoichiometric ethylene and air at 1 atm and 1500 K, and a table of molecular weights built from atomic weights *)
Ltac zdec := repeat match goal with
  | |- context[(?a <? ?b)%Z] => let c := eval vm_compute in ((a <? b)%Z) in change ((a <? b)%Z) with c; cbv iota
  | |- context[(?a <=? ?b)%Z] => let c := eval vm_compute in ((a <=? b)%Z) in change ((a <=? b)%Z) with c; cbv iota
  | |- context[(?a =? ?b)%Z] => let c := eval vm_compute in ((a =? b)%Z) in change ((a =? b)%Z) with c; cbv iota end.
Definition exMix (n : Z) : R := if (n =? 3)%Z then 218/1000 else if (n =? 14)%Z then 64/1000 else if (n =? 21)%Z then 718/1000 else 0.
Lemma exMix_nonneg n : 0 <= exMix n.
Proof. unfold exMix. destruct (n =? 3)%Z; [lra|]. destruct (n =? 14)%Z; [lra|]. destruct (n =? 21)%Z; lra. Qed.
Lemma exMix_le n : exMix n <= 1.
Proof. unfold exMix. destruct (n =? 3)%Z; [lra|]. destruct (n =? 14)%Z; [lra|]. destruct (n =? 21)%Z; lra. Qed.
Example C138_nonvacuous : exists XQ rop, netRates red22 1013250 1500 exMix = Some (XQ, rop) /\ (forall k, (k < 10)%nat -> 0 <= XQ k) /\
  (forall s, In s steady -> production red22 rop s = 0) /\ 0 <= molar22 red22 rop 10.
Proof.
  destruct (C138_solvable 1013250 1500 exMix) as (XQ & rop & E & N); [lra|lra|intros; apply exMix_nonneg|unfold oxygen, exMix; cbn [Z.eqb Pos.eqb]; lra|].
  exists XQ, rop. split; [exact E|]. split; [exact N|]. split; [intros s S; eapply C138_steady_state; eauto|].
  apply (C140_absent_not_consumed 1013250 1500 exMix XQ rop 10%Z); try lra; auto using exMix_nonneg; [unfold oxygen, exMix; cbn [Z.eqb Pos.eqb]; lra|lia].
Qed.
Example C141_nonvacuous : exists XQ rop, netRates red22 1013250 1500 (fun _ => 1/22) = Some (XQ, rop) /\ (forall k, (k < 10)%nat -> 0 < XQ k) /\ ~ In 0%nat (mZeroF red22) /\ ~ In 0%nat (mZeroB red22).
Proof.
  destruct (C138_solvable 1013250 1500 (fun _ => 1/22)) as (XQ & rop & E & _); [lra|lra|intros; lra|unfold oxygen; lra|]. exists XQ, rop. split; [exact E|].
  split; [exact (C141_steady_present 1013250 1500 (fun _ => 1/22) XQ rop ltac:(lra) ltac:(lra) ltac:(intros; lra) E)|]. cbn. split; lia.
Qed.
Definition ex22W (e : elem) : R := match e with eH => 1008/1000 | eC => 12 | eO => 16 | eN => 14 | eAr => 40 end.
Definition ex22MW (n : Z) : R := IZR (atomsOf red22_formulas n eH) * ex22W eH + IZR (atomsOf red22_formulas n eC) * ex22W eC + IZR (atomsOf red22_formulas n eO) * ex22W eO
                                 + IZR (atomsOf red22_formulas n eN) * ex22W eN + IZR (atomsOf red22_formulas n eAr) * ex22W eAr.
Definition ex22Gas : thtr := mkTh 22 8314 ex22MW (fun _ => 0) (fun n k => if (k =? 0)%Z then 1000 else if (k =? 1)%Z then 5/2 else if (k =? 8)%Z then 5/2 else 0) (fun _ => 1) (fun _ => 1) (fun _ => 0).
Lemma ex22_MW : positiveMW ex22Gas 22.
Proof.
  intros n Hn. cbn [MW ex22Gas]. unfold ex22MW, ex22W.
  assert (P : forall k, (k < 22)%nat -> (0 < atomsOf red22_formulas (Z.of_nat k) eH + atomsOf red22_formulas (Z.of_nat k) eC + atomsOf red22_formulas (Z.of_nat k) eO + atomsOf red22_formulas (Z.of_nat k) eN)%Z /\
     (0 <= atomsOf red22_formulas (Z.of_nat k) eH /\ 0 <= atomsOf red22_formulas (Z.of_nat k) eC /\ 0 <= atomsOf red22_formulas (Z.of_nat k) eO /\ 0 <= atomsOf red22_formulas (Z.of_nat k) eN /\ 0 <= atomsOf red22_formulas (Z.of_nat k) eAr)%Z).
  { intros k K. assert (C : forallb (fun k => (0 <? atomsOf red22_formulas (Z.of_nat k) eH + atomsOf red22_formulas (Z.of_nat k) eC + atomsOf red22_formulas (Z.of_nat k) eO + atomsOf red22_formulas (Z.of_nat k) eN)%Z &&
      ((0 <=? atomsOf red22_formulas (Z.of_nat k) eH) && (0 <=? atomsOf red22_formulas (Z.of_nat k) eC) && (0 <=? atomsOf red22_formulas (Z.of_nat k) eO) && (0 <=? atomsOf red22_formulas (Z.of_nat k) eN) && (0 <=? atomsOf red22_formulas (Z.of_nat k) eAr))%Z) (seq 0 22) = true) by (vm_compute; reflexivity).
    rewrite forallb_forall in C. specialize (C k ltac:(apply in_seq; lia)). rewrite !andb_true_iff, !Z.leb_le, Z.ltb_lt in C. tauto. }
  specialize (P (Z.to_nat n) ltac:(lia)). rewrite Z2Nat.id in P by lia. destruct P as (P & P1 & P2 & P3 & P4 & P5).
  apply IZR_lt in P. rewrite !plus_IZR in P. apply IZR_le in P1, P2, P3, P4, P5. lra.
Qed.
Lemma ex22_weights : atomicWeights red22_formulas ex22Gas 22 ex22W.
Proof. intros n Hn. reflexivity. Qed.
Definition ex22q (l : Z) : R := if (l =? 0)%Z then 101325 else if (l =? 4)%Z then 1500 else if (5 <=? l)%Z then exMix (l - 5) else 0.
Lemma cell22_some m th dt q Q dQ : (exists XQ rop, netRates m (q 0%Z * 10) (cT (fst (start22 q))) (clampY 22 (cY (fst (start22 q)))) = Some (XQ, rop)) ->
  exists dQ' om, chemCell22 m th 1 dt q Q dQ = Some (dQ', om).
Proof. intros (XQ & rop & E). unfold chemCell22. fold (start22 q). rewrite substeps22_one. unfold substep22. cbv zeta. rewrite E. eexists. eexists. reflexivity. Qed.
Example C139_nonvacuous : exists dQ' om, chemCell22 red22 ex22Gas 1 1 ex22q (fun l => if (l =? 0)%Z then 1 else ex22q l) (fun _ => 0) = Some (dQ', om) /\
  validFracs 22 (cY (fst (start22 ex22q))) /\ dQ' 0%Z = 0 /\ forall e, sumZ 0 22 (fun n => IZR (atomsOf red22_formulas n e) * (increments 22 (fun _ => 0) dQ' n / MW ex22Gas n)) = 0.
Proof.
  assert (V : validFracs 22 (cY (fst (start22 ex22q)))).
  { cbn [start22 fst cY]. split.
    - intros n Hn. destruct (Z.ltb_spec n 21); [|lra]. unfold ex22q. destruct (Z.eqb_spec (5 + n) 0); [lia|]. destruct (Z.eqb_spec (5 + n) 4); [lia|]. destruct (Z.leb_spec 5 (5 + n)); [|lia]. split; [apply exMix_nonneg|apply exMix_le].
    - change (22 - 1)%Z with 21%Z. unfold sumZ. change (zrange 0 21) with [0;1;2;3;4;5;6;7;8;9;10;11;12;13;14;15;16;17;18;19;20]%Z. cbn [map fold_right].
      unfold ex22q, exMix. zdec. lra. }
  assert (D0 : exists dQ' om, chemCell22 red22 ex22Gas 1 1 ex22q (fun l => if (l =? 0)%Z then 1 else ex22q l) (fun _ => 0) = Some (dQ', om)).
  { apply cell22_some.
    destruct (C138_solvable (ex22q 0%Z * 10) (cT (fst (start22 ex22q))) (clampY 22 (cY (fst (start22 ex22q))))) as (XQ & rop & E & _).
    - unfold ex22q. zdec. lra.
    - cbn [start22 fst cT]. unfold ex22q. zdec. lra.
    - intros n Hn. now apply clampY_nonneg.
    - unfold oxygen. rewrite clampY_id by (auto; lia). unfold withLast. change (3 =? 22 - 1)%Z with false. cbv iota. cbn [start22 fst cY]. change (3 <? 21)%Z with true. cbv iota.
      unfold ex22q, exMix. zdec. lra.
    - exists XQ, rop. exact E. }
  destruct D0 as (dQ' & om & E). exists dQ', om. split; [exact E|]. split; [exact V|].
  assert (K : forall e, dQ' 0%Z = 0 /\ sumZ 0 22 (fun n => IZR (atomsOf red22_formulas n e) * (increments 22 (fun _ => 0) dQ' n / MW ex22Gas n)) = 0).
  { intros e. refine (C139_cell ex22Gas ex22W 0 1 ex22q _ (fun _ => 0) dQ' om e ex22_MW ex22_weights _ _ _ E); [lra| |].
    - intros n Hn. cbv beta. destruct (Z.eqb_spec (5 + n) 0); [lia|]. cbn [Z.eqb]. lra.
    - intros k s' Hk Hs. assert (k = 0)%nat by lia. subst k. apply some_inj in Hs. subst s'. exact V. }
  split; [exact (proj1 (K eH))|]. intros e. exact (proj2 (K e)).
Qed.
Print Assumptions C138_steady_state.
Print Assumptions C138_solvable.
Print Assumptions C139_cell.
Print Assumptions C140_absent_not_consumed.
Print Assumptions C141_direction.
