(** The steady-state solve of chem_C2H4_Air_Red22 solves its linear system. *)
From Coq Require Import Reals ZArith List Bool Arith Lra Lia.
From Verif Require Import M_Chem M_Red22 M_Red22_Tables L_Elim L_Red22a.
Import ListNotations.

Open Scope nat_scope.
Definition red22_blocks : list (nat * list block) := [
  (5, [((3, [(0, false)]), [0; 4; 2; 1; 6; 8])]);
  (10, [((8, [(0, false)]), [0; 3; 4])]);
  (9, [((4, [(0, false); (7, false)]), [0; 3; 7; 2; 1; 8]); ((7, [(0, false); (4, false)]), [0; 4; 2; 1; 6])]);
  (8, [((3, [(0, false); (4, false)]), [0; 4; 2; 1; 6]); ((4, [(0, false); (3, false)]), [0; 3; 7; 2; 1])]);
  (6, [((3, [(0, false); (7, true); (2, false)]), [0; 4; 7; 2; 1]); ((7, [(0, false); (3, true); (2, false)]), [0; 3; 4; 2; 1]); ((2, [(0, false); (3, false); (7, false)]), [0; 3; 4; 7; 1])]);
  (1, [((3, [(0, false); (4, false); (7, false); (2, false)]), [0; 4; 7; 2]); ((4, [(0, false); (3, false); (7, false); (2, false)]), [0; 3; 7; 2]); ((7, [(0, false); (3, false); (4, false); (2, false)]), [0; 3; 4; 2]); ((2, [(0, false); (3, false); (4, false); (7, false)]), [0; 3; 4; 7])]);
  (2, [((3, [(0, false); (4, false); (7, false)]), [0; 4; 7]); ((4, [(0, false); (3, false); (7, false)]), [0; 3; 7]); ((7, [(0, false); (3, false); (4, false)]), [0; 3; 4])]);
  (7, [((3, [(0, false); (4, false)]), [0; 4]); ((4, [(0, false); (3, false)]), [0; 3])]);
  (4, [((3, [(0, false)]), [0])])].
Open Scope R_scope.

Lemma blocks_prog : progOf red22_blocks = red22_prog.
Proof. vm_compute. reflexivity. Qed.

Definition row22 := (nat * list (dir * nat) * list (nat * list (dir * nat)))%type.
Definition rId (r : row22) : nat := fst (fst r).
Definition rDen (r : row22) : list (dir * nat) := snd (fst r).
Definition rCols (r : row22) : list (nat * list (dir * nat)) := snd r.
Definition acts : list nat := map rId red22_rows.
Definition sup0 : supp := fun i j => existsb (fun r => (rId r =? i)%nat && inb j (map fst (rCols r))) red22_rows.
Lemma tables_ok : progOK red22_blocks acts sup0 && finishOK red22_blocks acts sup0 red22_back && backOK [] red22_back
  && nodupb acts && negb (inb 0 acts) && forallb (fun r => nodupb (map fst (rCols r)) && forallb (fun j => inb j (0%nat :: rm (rId r) acts)) (map fst (rCols r))) red22_rows
  && nodupb (map fst red22_blocks) && forallb (fun p => inb p acts) (map fst red22_blocks) && nodupb (map fst red22_back) = true.
Proof. vm_compute. reflexivity. Qed.

Section Solve.
Variables RF RB : nat -> R.
Let sm := sum22 RF RB.

Definition setCols (i : nat) (d : R) (cols : list (nat * list (dir * nat))) (A : matrix) : matrix :=
  fold_left (fun A jt => setA A i (fst jt) (sum22 RF RB (snd jt) / d)) cols A.
Lemma setCols_spec i d cols : forall A, NoDup (map fst cols) ->
  (forall r c, r <> i \/ ~ In c (map fst cols) -> setCols i d cols A r c = A r c) /\ (forall j ts, In (j, ts) cols -> setCols i d cols A i j = sm ts / d).
Proof.
  induction cols as [|[j ts] cols IH]; intros A ND; [split; [reflexivity|intros ? ? []]|]. inversion ND as [|? ? NA NL]; subst. cbn [map fst In] in *.
  change (setCols i d ((j, ts) :: cols) A) with (setCols i d cols (setA A i j (sm ts / d))). destruct (IH (setA A i j (sm ts / d)) NL) as [H1 H2]. split.
  - intros r c H. rewrite H1 by tauto. apply setA_other. destruct H as [H|H]; [now left|right; intros ->; tauto].
  - intros j' ts' [E|I]; [|now apply H2]. injection E as <- <-. rewrite H1 by (now right). apply setA_same.
Qed.
Lemma initA_spec rows : forall A0, NoDup (map rId rows) -> (forall r, In r rows -> NoDup (map fst (rCols r))) ->
  ((exists A, initA RF RB rows A0 = Some A) <-> forall r, In r rows -> sm (rDen r) <> 0) /\
  forall A, initA RF RB rows A0 = Some A ->
    (forall i c, ~ In i (map rId rows) -> A i c = A0 i c) /\
    (forall r, In r rows -> (forall c, ~ In c (map fst (rCols r)) -> A (rId r) c = A0 (rId r) c) /\
                            (forall j ts, In (j, ts) (rCols r) -> A (rId r) j = sm ts / sm (rDen r))).
Proof.
  induction rows as [|[[i den] cols] rows IH]; intros A0 ND NC.
  - split; [split; [intros _ r []|intros _; now exists A0]|]. intros A E. injection E as <-. split; [reflexivity|intros r []].
  - cbn [map rId fst] in *. inversion ND as [|? ? NA NL]; subst. cbn [initA]. fold (setCols i (sum22 RF RB den) cols A0).
    destruct (IH (setCols i (sum22 RF RB den) cols A0) NL (fun r R0 => NC r (or_intror R0))) as [H1 H2].
    assert (NCi : NoDup (map fst cols)) by (exact (NC (i, den, cols) (or_introl eq_refl))).
    destruct (setCols_spec i (sum22 RF RB den) cols A0 NCi) as [C1 C2].
    destruct (Req_EM_T (sum22 RF RB den) 0) as [E|NE].
    + split; [split; [intros [A F]; discriminate|intros F; exfalso; exact (F (i, den, cols) (or_introl eq_refl) E)]|discriminate].
    + split.
      * split; [intros F r [<-|R0]; [exact NE|now apply H1]|intros F; apply H1; intros r R0; apply F; now right].
      * intros A E. destruct (H2 A E) as [K1 K2]. split.
        -- intros i' c NI. cbn [In] in NI. rewrite K1 by tauto. apply C1. left. intros ->. tauto.
        -- intros r [<-|R0].
           ++ cbn [rCols rDen rId fst snd]. split; intros; rewrite (K1 i) by assumption; [apply C1; now right|now apply C2].
           ++ destruct (K2 r R0) as [L1 L2]. split; [|exact L2]. intros c C. rewrite L1 by assumption. apply C1. left. intros E2. apply NA. rewrite <- E2. now apply in_map.
Qed.

Definition Xe (XQ : nat -> R) (j : nat) : R := match j with O => 1 | S k => XQ k end.
(** the balance of one steady species: consumed = produced *)
Definition balanced (XQ : nat -> R) (r : row22) : Prop :=
  sm (rDen r) * Xe XQ (rId r) = fold_right (fun jt s => sm (snd jt) * Xe XQ (fst jt) + s) 0 (rCols r).

Lemma tok : progOK red22_blocks acts sup0 = true /\ finishOK red22_blocks acts sup0 red22_back = true /\ backOK [] red22_back = true /\
  NoDup acts /\ ~ In 0%nat acts /\ (forall r, In r red22_rows -> NoDup (map fst (rCols r)) /\ forall j, In j (map fst (rCols r)) -> In j (0%nat :: rm (rId r) acts)) /\
  NoDup (map fst red22_blocks) /\ (forall p, In p (map fst red22_blocks) -> In p acts) /\ NoDup (map fst red22_back).
Proof.
  pose proof tables_ok as T. repeat apply andb_prop in T as [T ?].
  split; [assumption|]. split; [assumption|]. split; [assumption|]. split; [now apply nodupb_ok|]. split; [now apply inb_false, negb_true_iff|]. split; [|split; [now apply nodupb_ok|split; [|now apply nodupb_ok]]].
  - match goal with H : forallb _ red22_rows = true |- _ => rewrite forallb_forall in H; rename H into HR end.
    intros r R0. pose proof (HR r R0) as C. apply andb_prop in C as [C1 C2]. split; [now apply nodupb_ok|]. rewrite forallb_forall in C2. intros j J. apply inb_iff. now apply C2.
  - match goal with H : forallb _ (map fst red22_blocks) = true |- _ => rewrite forallb_forall in H; rename H into HP end. intros p P. apply inb_iff. now apply HP.
Qed.
Lemma row_unique r r' : In r red22_rows -> In r' red22_rows -> rId r = rId r' -> r = r'.
Proof.
  destruct tok as (_ & _ & _ & ND & _). unfold acts in ND. revert ND. generalize red22_rows. intros l. induction l as [|a l IH]; intros ND I I' E; [easy|].
  cbn [map] in ND. inversion ND as [|? ? NA NL]; subst. destruct I as [<-|I], I' as [<-|I']; auto; exfalso; apply NA; [rewrite E|rewrite <- E]; now apply in_map.
Qed.
Lemma sup0_iff r j : In r red22_rows -> sup0 (rId r) j = true <-> In j (map fst (rCols r)).
Proof.
  intros R0. unfold sup0. rewrite existsb_exists. split.
  - intros (r' & I & E). apply andb_prop in E as [E1 E2]. apply Nat.eqb_eq in E1. rewrite (row_unique r r' R0 I (eq_sym E1)). now apply inb_iff.
  - intros J. exists r. split; [exact R0|]. rewrite Nat.eqb_refl. now apply inb_iff.
Qed.
Lemma rel0 A : initA RF RB red22_rows (fun _ _ => 0) = Some A -> Rel acts sup0 A A.
Proof.
  destruct tok as (_ & _ & _ & ND & _ & NC & _). intros E. destruct (initA_spec red22_rows (fun _ _ => 0) ND (fun r R0 => proj1 (NC r R0))) as [_ H]. destruct (H A E) as [_ K].
  intros i j I _ _. split; [reflexivity|]. apply in_map_iff in I as (r & <- & I). intros S0. apply (proj1 (K r I)). intros F. apply sup0_iff in F; [congruence|exact I].
Qed.
Lemma back_uses i : In i (map fst red22_back) -> exists js, In (i, js) red22_back.
Proof. intros I. apply in_map_iff in I as ([i' js] & <- & I). now exists js. Qed.

(** what the solve returns, given the matrix it starts from *)
Lemma steady_some A : initA RF RB red22_rows (fun _ _ => 0) = Some A ->
  ((exists XQ, steady22 red22 RF RB = Some XQ) <-> pivots (map fst red22_blocks) acts A) /\
  (forall XQ, steady22 red22 RF RB = Some XQ -> exists X, (forall k, XQ k = X (S k)) /\ solved (map fst red22_blocks) acts A X).
Proof.
  intros E. destruct tok as (PO & FO & BO & ND & Z0 & NC & NP & IP & NB). pose proof (rel0 A E) as RL.
  destruct (prog_spec red22_blocks acts sup0 A A 1 ND Z0 PO RL) as [P1 P2]. rewrite blocks_prog in P1, P2.
  unfold steady22. cbn [mRows red22 mProg mBack]. rewrite E. split.
  - split.
    + intros [XQ F]. apply P1. destruct (exec22 red22_prog A 1) as [Af|]; [now exists Af|discriminate].
    + intros PV. destruct (P2 PV) as (Af & F & _). rewrite F. eauto.
  - intros XQ F. destruct (exec22 red22_prog A 1) as [Af|] eqn:EX; [|discriminate]. injection F as <-.
    destruct (P2 (P1 (ex_intro _ Af eq_refl))) as (Af' & F & ST & _). injection F as <-.
    exists (back22 red22_back Af). split; [reflexivity|].
    destruct (back_spec Af red22_back [] (fun _ => 0) BO) as (_ & _ & HB). cbv zeta in HB.
    exact (finish_spec red22_blocks acts sup0 red22_back Af A (back22 red22_back Af) ND Z0 FO HB ST).
Qed.

Lemma sumCols (f : nat -> R) (l : list (nat * list (dir * nat))) : fold_right (fun jt s => f (fst jt) + s) 0 l = sumL (map fst l) f.
Proof. induction l as [|[j ts] l IH]; [reflexivity|]. cbn [map fst fold_right]. rewrite IH, sumL_cons. reflexivity. Qed.
Lemma foldR_ext (f g : nat * list (dir * nat) -> R) l : (forall x, In x l -> f x = g x) -> fold_right (fun jt s => f jt + s) 0 l = fold_right (fun jt s => g jt + s) 0 l.
Proof. induction l as [|x l IH]; intros H; [reflexivity|]. cbn [fold_right]. rewrite (H x (or_introl eq_refl)), IH; [reflexivity|]. intros y Y; apply H; now right. Qed.
Lemma foldR_scale c (f : nat * list (dir * nat) -> R) l : c * fold_right (fun jt s => f jt + s) 0 l = fold_right (fun jt s => c * f jt + s) 0 l.
Proof. induction l as [|x l IH]; cbn [fold_right]; [lra|]. rewrite <- IH. lra. Qed.

(** every steady species is in balance *)
Lemma steady_balanced XQ : steady22 red22 RF RB = Some XQ -> forall r, In r red22_rows -> balanced XQ r.
Proof.
  intros F r R0. destruct tok as (PO & FO & BO & ND & Z0 & NC & NP & IP & NB).
  destruct (initA RF RB red22_rows (fun _ _ => 0)) as [A|] eqn:E; [|unfold steady22 in F; cbn [mRows red22] in F; rewrite E in F; discriminate].
  destruct (steady_some A E) as [S1 S2]. destruct (S2 XQ F) as (X & EX & SO). pose proof (proj1 S1 (ex_intro _ XQ F)) as PV.
  assert (IA : In (rId r) acts) by (now apply in_map).
  pose proof (solved_all _ acts A X ND NP IP PV SO (rId r) IA) as RW. unfold rowOK in RW.
  destruct (initA_spec red22_rows (fun _ _ => 0) ND (fun r R1 => proj1 (NC r R1))) as [H0 H]. destruct (H A E) as [_ K]. destruct (K r R0) as [K1 K2].
  pose proof (proj1 H0 (ex_intro _ A E) r R0) as DN. destruct (NC r R0) as [N1 N2].
  assert (XE : forall j, j <> 0%nat -> Xe XQ j = X j) by (intros [|k] J; [contradiction|apply EX]).
  assert (RN : rId r <> 0%nat) by (intros Q; rewrite Q in IA; contradiction).
  unfold balanced. rewrite (XE _ RN), RW.
  set (Y := fun j => if (j =? 0)%nat then 1 else X j).
  assert (YE : forall j, Xe XQ j = Y j) by (intros [|k]; [reflexivity|apply EX]).
  replace (A (rId r) 0%nat + sumL (rm (rId r) acts) (fun j => A (rId r) j * X j)) with (sumL (0%nat :: rm (rId r) acts) (fun j => A (rId r) j * Y j)).
  2:{ rewrite sumL_cons. unfold Y at 1. cbn [Nat.eqb]. f_equal; [ring|]. apply sumL_ext. intros j J. unfold Y. destruct (Nat.eqb_spec j 0) as [->|_]; [|reflexivity]. apply in_rm in J. tauto. }
  rewrite (sumL_part (0%nat :: rm (rId r) acts) (map fst (rCols r))).
  - rewrite <- sumCols, foldR_scale. apply foldR_ext. intros [j ts] J. cbn [fst snd]. rewrite (K2 j ts J), YE. field. exact DN.
  - constructor; [intros Q; apply in_rm in Q; tauto|now apply nodup_rm].
  - exact N1.
  - exact N2.
  - intros j _ NJ. rewrite (K1 j NJ). ring.
Qed.
End Solve.
