(** The steady species of chem_C2H4_Air_Red22 are neither produced nor consumed; its sources conserve atoms. *)
From Coq Require Import Reals ZArith List Bool Arith Lra Lia.
From Verif Require Import M_Chem S_Chem M_Red22 M_Red22_Tables S_Red22 L_Elim L_Red22a L_Red22b.
Import ListNotations.
Open Scope R_scope.

Definition rx0 : reac22 := mkR22 (KConst (D 0 0)) [] [] 0 NoMod [] [] None None [].
Definition rxn (n : nat) : reac22 := nth n red22_reactions rx0.
Definition dirEqb (a b : dir) : bool := match a, b with Fwd, Fwd | Bwd, Bwd => true | _, _ => false end.
Definition termEqb (a b : dir * nat) : bool := dirEqb (fst a) (fst b) && (snd a =? snd b)%nat.
Lemma termEqb_eq a b : termEqb a b = true <-> a = b.
Proof.
  destruct a as [[|] n], b as [[|] k]; unfold termEqb; cbn [fst snd dirEqb andb]; rewrite ?Nat.eqb_eq; split; intros H;
    first [congruence | injection H as ->; reflexivity | now subst | idtac]; try discriminate.
Qed.
Fixpoint occ (t : dir * nat) (l : list (dir * nat)) : nat := match l with [] => O | a :: l' => (if termEqb t a then 1 else 0) + occ t l' end%nat.
Definition sumT (l : list (dir * nat)) (f : dir * nat -> R) : R := fold_right (fun t s => f t + s) 0 l.

Lemma sumL_single N (n : nat) (v : R) : (n < N)%nat -> sumL (seq 0 N) (fun k => if (k =? n)%nat then v else 0) = v.
Proof.
  intros H. rewrite (sumL_take n) by (try apply seq_NoDup; apply in_seq; lia). rewrite Nat.eqb_refl.
  rewrite sumL_zero; [lra|]. intros i I. apply in_rm in I. destruct (Nat.eqb_spec i n); [tauto|reflexivity].
Qed.
Lemma sumT_occ N f l : (forall t, In t l -> (snd t < N)%nat) ->
  sumT l f = sumL (seq 0 N) (fun n => INR (occ (Fwd, n) l) * f (Fwd, n) + INR (occ (Bwd, n) l) * f (Bwd, n)).
Proof.
  induction l as [|[d n] l IH]; intros H.
  - cbn [sumT fold_right occ INR]. rewrite sumL_zero; [reflexivity|]. intros; lra.
  - cbn [sumT fold_right]. fold (sumT l f). rewrite IH by (intros t T; apply H; now right). pose proof (H (d, n) (or_introl eq_refl)) as HN. cbn [snd] in HN.
    rewrite <- (sumL_single N n (f (d, n)) HN) at 1. rewrite <- sumL_add. apply sumL_ext. intros k _. cbn [occ]. rewrite !plus_INR. unfold termEqb. cbn [fst snd].
    destruct d; cbn [dirEqb andb]; destruct (Nat.eqb_spec k n) as [->|]; cbn [INR]; lra.
Qed.

Lemma productionFrom_sum rs : forall k rop s, productionFrom rs k rop s = sumL (seq k (length rs)) (fun n => IZR (change (nth (n - k) rs rx0) s) * rop n).
Proof.
  induction rs as [|r rs IH]; intros k rop s; [reflexivity|]. cbn [productionFrom length seq]. rewrite sumL_cons, Nat.sub_diag. cbn [nth]. f_equal. rewrite IH.
  apply sumL_ext. intros n I. apply in_seq in I. replace (n - k)%nat with (S (n - S k)) by lia. reflexivity.
Qed.
Lemma production_sum rop s : production red22 rop s = sumL (seq 0 206) (fun n => IZR (change (rxn n) s) * rop n).
Proof. unfold production. rewrite productionFrom_sum. apply sumL_ext. intros n _. now rewrite Nat.sub_0_r. Qed.

(** the steady factor of a term *)
Definition xOf (t : dir * nat) : option nat := match fst t with Fwd => rxF (rxn (snd t)) | Bwd => rxB (rxn (snd t)) end.
Definition zeroed (t : dir * nat) : bool := match fst t with Fwd => inb (snd t) red22_zeroF | Bwd => inb (snd t) red22_zeroB end.
Definition xIs (j : nat) (x : option nat) : bool := match j, x with O, None => true | S k, Some k' => (k =? k')%nat | _, _ => false end.
(** the terms of a row are directions of reactions that carry the unknown they are multiplied with, and there are as many as the reactions make molecules *)
Definition rowConsistent (s : nat) (r : row22) : bool :=
  let cols := flat_map (fun jt => snd jt) (rCols r) in
  forallb (fun t => zeroed t || xIs (rId r) (xOf t)) (rDen r) &&
  forallb (fun jt => forallb (fun t => zeroed t || xIs (fst jt) (xOf t)) (snd jt)) (rCols r) &&
  forallb (fun t => (snd t <? 206)%nat) (rDen r ++ cols) &&
  forallb (fun n => (inb n red22_zeroF || (change (rxn n) s =? Z.of_nat (occ (Fwd, n) cols) - Z.of_nat (occ (Fwd, n) (rDen r)))%Z) &&
                    (inb n red22_zeroB || (- change (rxn n) s =? Z.of_nat (occ (Bwd, n) cols) - Z.of_nat (occ (Bwd, n) (rDen r)))%Z)) (seq 0 206).
Lemma rows_consistent : forallb (fun sr => rowConsistent (fst sr) (snd sr)) (combine steady red22_rows) = true.
Proof. vm_compute. reflexivity. Qed.
Lemma rows_steady : length red22_rows = length steady.
Proof. reflexivity. Qed.

Section Rates.
Variable rs : list (R * R).
Let RF := rfOf red22 rs.
Let RB := rbOf red22 rs.
Variable XQ : nat -> R.
Definition flux (t : dir * nat) : R := match fst t with Fwd => RF (snd t) * xfac (rxF (rxn (snd t))) XQ | Bwd => RB (snd t) * xfac (rxB (rxn (snd t))) XQ end.
Lemma rop_flux n : rop22 red22 rs XQ n = flux (Fwd, n) - flux (Bwd, n).
Proof. reflexivity. Qed.
Lemma zeroF_flux n : inb n red22_zeroF = true -> RF n = 0.
Proof. intros H. unfold RF, rfOf. cbn [mZeroF red22]. fold (inb n red22_zeroF). now rewrite H. Qed.
Lemma zeroB_flux n : inb n red22_zeroB = true -> RB n = 0.
Proof. intros H. unfold RB, rbOf. cbn [mZeroB red22]. fold (inb n red22_zeroB). now rewrite H. Qed.
Lemma term_flux t j : zeroed t || xIs j (xOf t) = true -> term22 RF RB t * Xe XQ j = flux t.
Proof.
  destruct t as [[|] n]; unfold zeroed, xOf, term22, flux; cbn [fst snd]; intros H; apply orb_prop in H as [H|H].
  1: rewrite (zeroF_flux n H); lra. 2: rewrite (zeroB_flux n H); lra.
  1: destruct (rxF (rxn n)) as [k|]. 3: destruct (rxB (rxn n)) as [k|].
  all: destruct j as [|j]; cbn [xIs] in H; try discriminate; cbn [Xe xfac]; try reflexivity; apply Nat.eqb_eq in H; now subst.
Qed.
Lemma sum22_sumT ts : sum22 RF RB ts = sumT ts (term22 RF RB).
Proof.
  unfold sum22. assert (G : forall a, fold_left (fun s t => s + term22 RF RB t) ts a = a + sumT ts (term22 RF RB)).
  { induction ts as [|t ts IH]; intros a; [cbn; lra|]. cbn [fold_left]. rewrite IH. cbn [sumT fold_right]. fold (sumT ts (term22 RF RB)). lra. }
  rewrite G. lra.
Qed.
Lemma sumT_flux ts j : forallb (fun t => zeroed t || xIs j (xOf t)) ts = true -> sum22 RF RB ts * Xe XQ j = sumT ts flux.
Proof.
  rewrite sum22_sumT. induction ts as [|t ts IH]; intros H; [cbn; lra|]. cbn [forallb] in H. apply andb_prop in H as [H1 H2].
  cbn [sumT fold_right]. fold (sumT ts (term22 RF RB)) (sumT ts flux). rewrite <- IH, <- (term_flux t j) by assumption. lra.
Qed.
Lemma sumT_app l l' f : sumT (l ++ l') f = sumT l f + sumT l' f.
Proof. induction l as [|t l IH]; [symmetry; apply Rplus_0_l|]. cbn [app]. unfold sumT in *; cbn [fold_right]; rewrite IH. lra. Qed.

Lemma row_production s r : rowConsistent s r = true -> L_Red22b.balanced RF RB XQ r -> production red22 (rop22 red22 rs XQ) s = 0.
Proof.
  intros H B. unfold rowConsistent in H. apply andb_prop in H as [H H4]. apply andb_prop in H as [H H3]. apply andb_prop in H as [H1 H2].
  unfold L_Red22b.balanced in B. rewrite (sumT_flux _ _ H1) in B.
  assert (C : fold_right (fun jt s => sum22 RF RB (snd jt) * Xe XQ (fst jt) + s) 0 (rCols r) = sumT (flat_map (fun jt => snd jt) (rCols r)) flux).
  { clear B H3 H4. induction (rCols r) as [|jt l IH]; [reflexivity|]. cbn [forallb] in H2. apply andb_prop in H2 as [H2 H2']. cbn [fold_right flat_map].
    rewrite sumT_app, (sumT_flux _ _ H2), IH by assumption. reflexivity. }
  rewrite C in B. clear C. rewrite forallb_forall in H3, H4.
  rewrite (sumT_occ 206), (sumT_occ 206) in B by (intros t T; apply Nat.ltb_lt, H3, in_or_app; tauto).
  set (cols := flat_map (fun jt => snd jt) (rCols r)) in *.
  rewrite production_sum. apply Rplus_eq_reg_r with (sumL (seq 0 206) (fun n => INR (occ (Fwd, n) (rDen r)) * flux (Fwd, n) + INR (occ (Bwd, n) (rDen r)) * flux (Bwd, n))).
  rewrite Rplus_0_l. rewrite B at 2. rewrite <- sumL_add. apply sumL_ext. intros n I. specialize (H4 n I). apply andb_prop in H4 as [F K]. rewrite rop_flux.
  assert (EF : IZR (change (rxn n) s) * flux (Fwd, n) = (INR (occ (Fwd, n) cols) - INR (occ (Fwd, n) (rDen r))) * flux (Fwd, n)).
  { apply orb_prop in F as [F|F]; [unfold flux; cbn [fst snd]; rewrite (zeroF_flux n F); lra|]. apply Z.eqb_eq in F. rewrite F, minus_IZR, <- !INR_IZR_INZ. reflexivity. }
  assert (EB : - IZR (change (rxn n) s) * flux (Bwd, n) = (INR (occ (Bwd, n) cols) - INR (occ (Bwd, n) (rDen r))) * flux (Bwd, n)).
  { apply orb_prop in K as [K|K]; [unfold flux; cbn [fst snd]; rewrite (zeroB_flux n K); lra|]. apply Z.eqb_eq in K. rewrite <- opp_IZR, K, minus_IZR, <- !INR_IZR_INZ. reflexivity. }
  lra.
Qed.
Lemma in_combine_nth {A B} (l : list A) (l' : list B) a : length l = length l' -> In a l -> exists b, In (a, b) (combine l l') /\ In b l'.
Proof.
  revert l'. induction l as [|x l IH]; intros [|y l'] L I; try easy. cbn [combine]. destruct I as [->|I]; [exists y; split; now left|].
  destruct (IH l' ltac:(cbn in L; lia) I) as (b & B1 & B2). exists b. split; now right.
Qed.
Lemma steady_zero : steady22 red22 RF RB = Some XQ -> forall s, In s steady -> production red22 (rop22 red22 rs XQ) s = 0.
Proof.
  intros H s S. destruct (in_combine_nth steady red22_rows s (eq_sym rows_steady) S) as (r & I & R0).
  apply (row_production s r).
  - pose proof rows_consistent as C. rewrite forallb_forall in C. exact (C (s, r) I).
  - exact (steady_balanced RF RB XQ H r R0).
Qed.
End Rates.

(** dYdt is the production of the kept species *)
Definition nuConsistent : bool := forallb (fun r => forallb (fun s => (nth s kept 0%nat =? 31)%nat || (fold_right (fun sc a => if (fst sc =? s)%nat then snd sc + a else a) 0 (rNu r) =? change r (nth s kept 0%nat))%Z) (seq 0 22)) red22_reactions.
Lemma nu_consistent : nuConsistent = true.
Proof. vm_compute. reflexivity. Qed.
Lemma molar_sum rop s : molar22 red22 rop s = sumL (seq 0 206) (fun n => IZR (fold_right (fun sc a => if (fst sc =? s)%nat then snd sc + a else a) 0 (rNu (rxn n)))%Z * rop n).
Proof.
  unfold molar22. cbn [mReacs red22]. change (length red22_reactions) with 206%nat. fold rx0.
  assert (G : forall l a, fold_left (fun acc n => fold_left (fun acc sc => if (fst sc =? s)%nat then acc + IZR (snd sc) * rop n else acc) (rNu (nth n red22_reactions rx0)) acc) l a =
    a + sumL l (fun n => IZR (fold_right (fun sc a => if (fst sc =? s)%nat then snd sc + a else a) 0 (rNu (rxn n)))%Z * rop n)).
  { induction l as [|n l IH]; intros a; [rewrite sumL_nil; cbn; lra|]. cbn [fold_left]. rewrite IH, sumL_cons. fold (rxn n).
    assert (K : forall nu b, fold_left (fun acc sc => if (fst sc =? s)%nat then acc + IZR (snd sc) * rop n else acc) nu b = b + IZR (fold_right (fun sc a => if (fst sc =? s)%nat then snd sc + a else a) 0 nu)%Z * rop n).
    { induction nu as [|[i c] nu IHn]; intros b; [cbn; lra|]. cbn [fold_left fold_right fst snd]. rewrite IHn. destruct (i =? s)%nat; [rewrite plus_IZR; lra|reflexivity]. }
    rewrite K. lra. }
  rewrite G. lra.
Qed.
Lemma molar_production rop s : (s < 21)%nat -> molar22 red22 rop s = production red22 rop (nth s kept 0%nat).
Proof.
  intros S. rewrite molar_sum, production_sum. apply sumL_ext. intros n I. f_equal. f_equal.
  pose proof nu_consistent as N. unfold nuConsistent in N. rewrite forallb_forall in N. specialize (N (rxn n)).
  assert (IR : In (rxn n) red22_reactions) by (apply nth_In; apply in_seq in I; exact (proj2 I)). specialize (N IR). rewrite forallb_forall in N. specialize (N s ltac:(apply in_seq; lia)).
  apply orb_prop in N as [N|N].
  - apply Nat.eqb_eq in N. do 21 (destruct s as [|s]; [discriminate|]). lia.
  - now apply Z.eqb_eq in N.
Qed.
Lemma production_N2 rop : production red22 rop 31 = 0.
Proof.
  rewrite production_sum. apply sumL_zero. intros n I.
  assert (C : forallb (fun r => (change r 31 =? 0)%Z) red22_reactions = true) by (vm_compute; reflexivity).
  rewrite forallb_forall in C. assert (IR : In (rxn n) red22_reactions) by (apply nth_In; apply in_seq in I; exact (proj2 I)).
  specialize (C _ IR). apply Z.eqb_eq in C. rewrite C. lra.
Qed.
(** every reaction is balanced in every element *)
Definition atoms (s : nat) (e : elem) : Z := count (nth s skeletal_formulas []) e.
Definition reacBalanced (r : reac22) : bool :=
  forallb (fun e => (fold_right (fun s a => atoms s e * change r s + a) 0 (seq 0 32) =? 0)%Z) [eH; eC; eO; eN; eAr].
Lemma reactions_balanced : forallb reacBalanced red22_reactions = true.
Proof. vm_compute. reflexivity. Qed.
Lemma sumL_swap l l' (f : nat -> nat -> R) : sumL l (fun i => sumL l' (fun j => f i j)) = sumL l' (fun j => sumL l (fun i => f i j)).
Proof.
  induction l as [|a l IH]; [rewrite sumL_nil; symmetry; apply sumL_zero; reflexivity|]. rewrite sumL_cons, IH, <- sumL_add. apply sumL_ext. intros j _. reflexivity.
Qed.
Lemma sumL_scale_r l c f : sumL l (fun i => f i * c) = sumL l f * c.
Proof. rewrite (sumL_ext l _ (fun i => c * f i)) by (intros; lra). rewrite sumL_scale. lra. Qed.
Lemma production_atoms rop e : sumL (seq 0 32) (fun s => IZR (atoms s e) * production red22 rop s) = 0.
Proof.
  rewrite (sumL_ext _ _ (fun s => sumL (seq 0 206) (fun n => IZR (atoms s e) * IZR (change (rxn n) s) * rop n))).
  2:{ intros s _. rewrite production_sum, <- sumL_scale. apply sumL_ext. intros; lra. }
  rewrite sumL_swap. apply sumL_zero. intros n I. rewrite sumL_scale_r.
  assert (IR : In (rxn n) red22_reactions) by (apply nth_In; apply in_seq in I; exact (proj2 I)).
  pose proof reactions_balanced as RBn. rewrite forallb_forall in RBn. specialize (RBn _ IR). unfold reacBalanced in RBn. rewrite forallb_forall in RBn.
  specialize (RBn e ltac:(destruct e; cbn; tauto)). apply Z.eqb_eq in RBn.
  assert (G : forall l, sumL l (fun s => IZR (atoms s e) * IZR (change (rxn n) s)) = IZR (fold_right (fun s a => atoms s e * change (rxn n) s + a) 0 l)%Z).
  { induction l as [|s l IH]; [reflexivity|]. rewrite sumL_cons, IH. cbn [fold_right]. now rewrite plus_IZR, mult_IZR. }
  rewrite G, RBn. lra.
Qed.
(** C139: the sources of the transported species carry no net atoms *)
Lemma molar_atoms rop e : (forall s, In s steady -> production red22 rop s = 0) ->
  sumL (seq 0 21) (fun s => IZR (atoms (nth s kept 0%nat) e) * molar22 red22 rop s) = 0.
Proof.
  intros Z. rewrite (sumL_ext _ _ (fun s => (fun k => IZR (atoms k e) * production red22 rop k) (nth s kept 0%nat))).
  2:{ intros s I. apply in_seq in I. rewrite molar_production by lia. reflexivity. }
  pose proof (production_atoms rop e) as P. set (g := fun k => IZR (atoms k e) * production red22 rop k) in *.
  rewrite (sumL_part _ kept) in P.
  - rewrite <- P. assert (G31 : g 31%nat = 0) by (unfold g; rewrite production_N2; lra). unfold kept, sumL. cbn [seq fold_right nth]. rewrite G31. unfold g. lra.
  - apply seq_NoDup. - apply nodupb_ok. reflexivity.
  - intros i I. apply in_seq. unfold kept in I. cbn [In] in I. lia.
  - intros i I NI. unfold g. rewrite Z; [lra|]. apply in_seq in I. unfold kept in NI. cbn [In] in NI. unfold steady. cbn [In]. lia.
Qed.
