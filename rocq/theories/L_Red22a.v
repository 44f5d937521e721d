(** The elimination program of chem_C2H4_Air_Red22 is an elimination in the sense of L_Elim. *)
From Coq Require Import Reals ZArith List Bool Arith Lra Lia.
From Verif Require Import M_Chem M_Red22 L_Elim.
Import ListNotations.
Open Scope R_scope.

(** one block: row i, pivot p, the columns added (true: declared there), the columns divided *)
Definition block := (nat * list (nat * bool) * list nat)%type.
Definition flat (p : nat) (b : block) : list stmt22 :=
  let '(i, adds, divs) := b in
  map (fun jn : nat * bool => if snd jn then SNew i (fst jn) p else SAdd i (fst jn) p) adds ++ SDen i p :: map (SDiv i) divs.

Definition addF (i p : nat) (adds : list (nat * bool)) (A : matrix) : matrix :=
  fold_left (fun A (jn : nat * bool) => if snd jn then setA A i (fst jn) (A i p * A p (fst jn)) else setA A i (fst jn) (A i (fst jn) + A i p * A p (fst jn))) adds A.
Definition divF (i : nat) (den : R) (divs : list nat) (A : matrix) : matrix := fold_left (fun A j => setA A i j (A i j / den)) divs A.

Lemma exec_adds i p adds q : forall A d,
  exec22 (map (fun jn : nat * bool => if snd jn then SNew i (fst jn) p else SAdd i (fst jn) p) adds ++ q) A d = exec22 q (addF i p adds A) d.
Proof. induction adds as [|[j n] adds IH]; intros A d; [reflexivity|]. cbn. destruct n; cbn; rewrite IH; reflexivity. Qed.
Lemma exec_divs i divs q den : den <> 0 -> forall A, exec22 (map (SDiv i) divs ++ q) A den = exec22 q (divF i den divs A) den.
Proof. intros D. induction divs as [|j divs IH]; intros A; [reflexivity|]. cbn. destruct (Req_EM_T den 0); [contradiction|]. rewrite IH. reflexivity. Qed.

(** the matrix after one block *)
Definition after (p : nat) (b : block) (A : matrix) : matrix :=
  let '(i, adds, divs) := b in let A1 := addF i p adds A in divF i (1 - A1 i p * A1 p i) divs A1.
Definition denOf (p : nat) (b : block) (A : matrix) : R := let '(i, adds, divs) := b in let A1 := addF i p adds A in 1 - A1 i p * A1 p i.

Lemma exec_block p i adds divs q A d : divs <> [] ->
  exec22 (flat p (i, adds, divs) ++ q) A d =
  if Req_EM_T (denOf p (i, adds, divs) A) 0 then None else exec22 q (after p (i, adds, divs) A) (denOf p (i, adds, divs) A).
Proof.
  intros ND. unfold flat. rewrite <- app_assoc, exec_adds. cbn [app exec22]. unfold denOf, after. set (A1 := addF i p adds A). set (den := 1 - A1 i p * A1 p i).
  destruct (Req_EM_T den 0) as [E|NE].
  - destruct divs as [|j divs]; [contradiction|]. cbn. destruct (Req_EM_T den 0); [reflexivity|contradiction].
  - now rewrite exec_divs.
Qed.

Definition inb (j : nat) (l : list nat) : bool := existsb (Nat.eqb j) l.
Lemma inb_iff j l : inb j l = true <-> In j l.
Proof. unfold inb. rewrite existsb_exists. split; [intros (x & I & E); apply Nat.eqb_eq in E; now subst|intros I; exists j; split; [exact I|apply Nat.eqb_refl]]. Qed.
Lemma inb_false j l : inb j l = false <-> ~ In j l.
Proof. rewrite <- inb_iff. destruct (inb j l); split; congruence. Qed.

Lemma setA_same A i j v : setA A i j v i j = v.
Proof. unfold setA. now rewrite !Nat.eqb_refl. Qed.
Lemma setA_other A i j v r c : r <> i \/ c <> j -> setA A i j v r c = A r c.
Proof. unfold setA. intros [H|H]; [rewrite (proj2 (Nat.eqb_neq r i) H)|rewrite (proj2 (Nat.eqb_neq c j) H), andb_false_r]; reflexivity. Qed.

Lemma addF_spec i p adds : forall A, i <> p -> NoDup (map fst adds) -> ~ In p (map fst adds) ->
  (forall r c, r <> i -> addF i p adds A r c = A r c) /\
  (forall c, ~ In c (map fst adds) -> addF i p adds A i c = A i c) /\
  (forall c n, In (c, n) adds -> addF i p adds A i c = (if n : bool then 0 else A i c) + A i p * A p c).
Proof.
  induction adds as [|[j n] adds IH]; intros A NE ND NP; [repeat split; auto; intros ? ? []|].
  inversion ND as [|? ? NA NL]; subst. cbn [map fst In] in *.
  set (A' := if n then setA A i j (A i p * A p j) else setA A i j (A i j + A i p * A p j)).
  assert (U : addF i p ((j, n) :: adds) A = addF i p adds A') by (destruct n; reflexivity).
  assert (O : forall r c, r <> i \/ c <> j -> A' r c = A r c) by (intros r c H; unfold A'; destruct n; now apply setA_other).
  destruct (IH A' NE NL (fun F => NP (or_intror F))) as (H1 & H2 & H3). rewrite U. repeat split.
  - intros r c R0. rewrite H1 by assumption. apply O. now left.
  - intros c C. rewrite H2 by tauto. apply O. right. intros ->. apply C. now left.
  - intros c n' [E|I].
    + injection E as -> ->. rewrite H2 by assumption. unfold A'. destruct n'; rewrite setA_same; ring.
    + assert (c <> j) by (intros ->; apply NA; apply in_map_iff; exists (j, n'); split; auto).
      rewrite (H3 c n' I). rewrite (O i p), (O p c), (O i c); try reflexivity; [now right|left; auto|right; intros ->; apply NP; now left].
Qed.
Lemma divF_spec i den divs : forall A, NoDup divs ->
  (forall r c, r <> i -> divF i den divs A r c = A r c) /\ (forall c, ~ In c divs -> divF i den divs A i c = A i c) /\
  (forall c, In c divs -> divF i den divs A i c = A i c / den).
Proof.
  induction divs as [|j divs IH]; intros A ND; [repeat split; auto; intros ? []|].
  inversion ND as [|? ? NA NL]; subst. cbn [In] in *. change (divF i den (j :: divs) A) with (divF i den divs (setA A i j (A i j / den))).
  destruct (IH (setA A i j (A i j / den)) NL) as (H1 & H2 & H3). repeat split.
  - intros r c R0. rewrite H1 by assumption. apply setA_other. now left.
  - intros c C. rewrite H2 by tauto. apply setA_other. right. intros ->. tauto.
  - intros c [<-|I]; [rewrite H2 by assumption; apply setA_same|]. rewrite H3 by assumption. rewrite setA_other; [reflexivity|]. right. intros ->. contradiction.
Qed.

(** which entries may be non-zero *)
Definition supp := nat -> nat -> bool.
Fixpoint nodupb (l : list nat) : bool := match l with [] => true | a :: l' => negb (inb a l') && nodupb l' end.
Lemma nodupb_ok l : nodupb l = true -> NoDup l.
Proof. induction l as [|a l IH]; cbn; intros H; constructor; apply andb_prop in H as [H1 H2]; [|auto]. apply negb_true_iff, inb_false in H1. exact H1. Qed.

(** a block eliminates p from row i *)
Definition blockOK (act : list nat) (sup : supp) (p : nat) (b : block) : bool :=
  let '(i, adds, divs) := b in
  inb i (rm p act) && nodupb (map fst adds) && nodupb divs && inb 0 divs &&
  forallb (fun jn : nat * bool => inb (fst jn) (0%nat :: rm p (rm i act)) && eqb (snd jn) (negb (sup i (fst jn)))) adds &&
  forallb (fun j => inb j (0%nat :: rm p (rm i act))) divs &&
  forallb (fun j => (negb (sup p j) || inb j (map fst adds)) && (negb (sup i j || sup p j) || inb j divs)) (0%nat :: rm p (rm i act)).
(** the rows in act agree with G and vanish outside sup *)
Definition Rel (act : list nat) (sup : supp) (A : matrix) (G : mat) : Prop :=
  forall i j, In i act -> In j (0%nat :: act) -> j <> i -> A i j = G i j /\ (sup i j = false -> A i j = 0).

Lemma block_spec act sup p i adds divs A : NoDup act -> In p act -> ~ In 0%nat act -> blockOK act sup p (i, adds, divs) = true ->
  (forall r j, r = i \/ r = p -> In j (0%nat :: act) -> j <> r -> sup r j = false -> A r j = 0) ->
  i <> p /\ In i act /\
  denOf p (i, adds, divs) A = 1 - A i p * A p i /\
  (forall r c, r <> i -> after p (i, adds, divs) A r c = A r c) /\
  (1 - A i p * A p i <> 0 -> forall j, In j (0%nat :: rm p act) -> j <> i ->
     after p (i, adds, divs) A i j = (A i j + A i p * A p j) / (1 - A i p * A p i) /\
     (sup i j || sup p j = false -> after p (i, adds, divs) A i j = 0)).
Proof.
  intros N P Z0 B Z. unfold blockOK in B. repeat apply andb_prop in B as [B ?].
  rename B into B1. apply inb_iff, in_rm in B1. destruct B1 as [Ii Ip].
  match goal with H : nodupb (map fst adds) = true |- _ => apply nodupb_ok in H; rename H into NA end.
  match goal with H : nodupb divs = true |- _ => apply nodupb_ok in H; rename H into ND end.
  match goal with H : forallb _ adds = true |- _ => rewrite forallb_forall in H; rename H into HA end.
  match goal with H : forallb _ divs = true |- _ => rewrite forallb_forall in H; rename H into HD end.
  match goal with H : forallb _ (0%nat :: _) = true |- _ => rewrite forallb_forall in H; rename H into HC end.
  assert (COL : forall c, In c (map fst adds) -> In c (0%nat :: rm p (rm i act))).
  { intros c C. apply in_map_iff in C as ([c' n] & <- & C). specialize (HA _ C). apply andb_prop in HA as [HA _]. apply inb_iff in HA. exact HA. }
  assert (NPin : ~ In p (map fst adds)).
  { intros F. apply COL in F. destruct F as [F|F]; [subst; contradiction|]. apply in_rm in F. tauto. }
  assert (NIin : ~ In i (map fst adds)).
  { intros F. apply COL in F. destruct F as [F|F]; [subst; contradiction|]. apply in_rm in F as [F _]. apply in_rm in F. tauto. }
  destruct (addF_spec i p adds A Ip NA NPin) as (Q1 & Q2 & Q3).
  assert (DE : denOf p (i, adds, divs) A = 1 - A i p * A p i).
  { unfold denOf. rewrite (Q2 p NPin), (Q1 p i) by auto. reflexivity. }
  split; [exact Ip|split; [exact Ii|split; [exact DE|split]]].
  - intros r c R0. unfold after. destruct (divF_spec i (1 - addF i p adds A i p * addF i p adds A p i) divs (addF i p adds A) ND) as (K1 & _). rewrite K1 by assumption. now apply Q1.
  - intros D j J JI.
    assert (J' : In j (0%nat :: rm p (rm i act))).
    { destruct J as [J|J]; [left; exact J|right]. apply in_rm in J as [J1 J2]. apply in_rm; split; [apply in_rm; now split|exact J2]. }
    assert (J2 : In j (0%nat :: act)) by (destruct J as [J|J]; [now left|right; apply in_rm in J; tauto]).
    assert (JP : j <> p) by (intros ->; destruct J as [J|J]; [subst; contradiction|apply in_rm in J; tauto]).
    destruct (divF_spec i (1 - addF i p adds A i p * addF i p adds A p i) divs (addF i p adds A) ND) as (_ & K2 & K3).
    assert (DEN : 1 - addF i p adds A i p * addF i p adds A p i = 1 - A i p * A p i) by (rewrite (Q2 p NPin), (Q1 p i) by auto; reflexivity).
    pose proof (HC j J') as C. apply andb_prop in C as [C1 C2].
    assert (V : addF i p adds A i j = A i j + A i p * A p j).
    { destruct (inb j (map fst adds)) eqn:IA.
      - apply inb_iff, in_map_iff in IA as ([j' n] & E & IA). cbn in E; subst j'. rewrite (Q3 j n IA). pose proof (HA _ IA) as HJ. apply andb_prop in HJ as [_ HJ].
        apply eqb_prop in HJ. cbn in HJ. destruct n; [|reflexivity]. symmetry in HJ. apply negb_true_iff in HJ. rewrite (Z i j) by auto. ring.
      - rewrite orb_false_r in C1. apply negb_true_iff in C1. apply inb_false in IA. rewrite (Q2 j IA). rewrite (Z p j) by auto. ring. }
    assert (Z1 : sup i j || sup p j = false -> A i j + A i p * A p j = 0).
    { intros O. apply orb_false_iff in O as [O1 O2]. rewrite (Z i j), (Z p j) by auto. ring. }
    unfold after. destruct (inb j divs) eqn:IDv.
    + apply inb_iff in IDv. rewrite (K3 j IDv), V, DEN. split; [reflexivity|]. intros O. rewrite Z1 by assumption. unfold Rdiv. ring.
    + rewrite orb_false_r in C2. apply negb_true_iff in C2. apply inb_false in IDv. rewrite (K2 j IDv), V, (Z1 C2). split; [unfold Rdiv; ring|auto].
Qed.

Definition rowsOf (bs : list block) : list nat := map (fun b : block => fst (fst b)) bs.
Definition pivotOK (act : list nat) (sup : supp) (p : nat) (bs : list block) : bool :=
  forallb (blockOK act sup p) bs && nodupb (rowsOf bs) && forallb (fun i => negb (sup i p) || inb i (rowsOf bs)) (rm p act).

Lemma blockOK_divs act sup p i adds divs : blockOK act sup p (i, adds, divs) = true -> divs <> [] /\ In i (rm p act).
Proof. intros B. unfold blockOK in B. repeat apply andb_prop in B as [B ?]. split; [intros ->; discriminate|now apply inb_iff]. Qed.

(** rows i of which the program has eliminated p *)
Definition done (act : list nat) (sup : supp) (p : nat) (A A' : matrix) (i : nat) : Prop :=
  forall j, In j (0%nat :: rm p act) -> j <> i ->
    A' i j = (A i j + A i p * A p j) / (1 - A i p * A p i) /\ (sup i j || sup p j = false -> A' i j = 0).

Lemma blocks_run act sup p q : NoDup act -> In p act -> ~ In 0%nat act ->
  forall bs A d, forallb (blockOK act sup p) bs = true -> NoDup (rowsOf bs) ->
  (forall r j, In r (rowsOf bs) \/ r = p -> In j (0%nat :: act) -> j <> r -> sup r j = false -> A r j = 0) ->
  ((exists Af, exec22 (concat (map (flat p) bs) ++ q) A d = Some Af) -> forall i, In i (rowsOf bs) -> 1 - A i p * A p i <> 0) /\
  ((forall i, In i (rowsOf bs) -> 1 - A i p * A p i <> 0) ->
     exists A' d', exec22 (concat (map (flat p) bs) ++ q) A d = exec22 q A' d' /\
       (forall r c, ~ In r (rowsOf bs) -> A' r c = A r c) /\ (forall i, In i (rowsOf bs) -> done act sup p A A' i)).
Proof.
  intros N P Z0. induction bs as [|[[i adds] divs] bs IH]; intros A d B NR Z.
  - split; [intros _ i []|]. intros _. exists A, d. repeat split; auto; destruct H.
  - cbn [forallb] in B. apply andb_prop in B as [B1 B2]. cbn [rowsOf map fst] in *. inversion NR as [|? ? NA NL]; subst. fold (rowsOf bs) in *.
    destruct (blockOK_divs _ _ _ _ _ _ B1) as [DV _].
    destruct (block_spec act sup p i adds divs A N P Z0 B1) as (Ip & Ii & DE & OTH & VAL).
    { intros r j [->| ->] J1 J2 J3; apply Z; auto; left; now left. }
    cbn [map concat]. rewrite <- app_assoc, (exec_block p i adds divs _ A d DV), DE.
    set (A1 := after p (i, adds, divs) A) in *.
    assert (PR : p <> i) by auto.
    assert (SAME : forall r, In r (rowsOf bs) \/ r = p -> r <> i) by (intros r [R0| ->]; [intros ->; contradiction|auto]).
    destruct (IH A1 (1 - A i p * A p i) B2 NL) as [S1 S2].
    { intros r j R0 J1 J2 J3. rewrite OTH by (now apply SAME). apply Z; auto. destruct R0; [left; now right|now right]. }
    assert (EQ : forall r, In r (rowsOf bs) -> 1 - A1 r p * A1 p r = 1 - A r p * A p r).
    { intros r R0. rewrite !OTH; auto. }
    split.
    + destruct (Req_EM_T (1 - A i p * A p i) 0) as [E|NE]; [intros [Af F]; discriminate|].
      intros F r [<-|R0]; [exact NE|]. rewrite <- EQ by assumption. now apply S1.
    + intros D. destruct (Req_EM_T (1 - A i p * A p i) 0) as [E|NE]; [exfalso; exact (D i (or_introl eq_refl) E)|].
      destruct S2 as (A' & d' & X1 & X2 & X3).
      { intros r R0. rewrite EQ by assumption. apply D. now right. }
      exists A', d'. split; [exact X1|]. split.
      * intros r c R0. rewrite X2 by (intros F; apply R0; now right). apply OTH. intros ->. apply R0. now left.
      * intros r [<-|R0] j J1 J2.
        -- rewrite X2 by assumption. now apply VAL.
        -- destruct (X3 r R0 j J1 J2) as [Y1 Y2]. split; [|exact Y2]. rewrite Y1. rewrite !OTH; auto.
Qed.

Definition supNext (sup : supp) (p : nat) (bs : list block) : supp := fun i j => sup i j || (inb i (rowsOf bs) && sup p j).
Fixpoint progOK (pbs : list (nat * list block)) (act : list nat) (sup : supp) : bool :=
  match pbs with
  | [] => true
  | (p, bs) :: rest => inb p act && pivotOK act sup p bs && progOK rest (rm p act) (supNext sup p bs)
  end.
Fixpoint stageOK (pbs : list (nat * list block)) (act : list nat) (sup : supp) (G : mat) (Af : matrix) : Prop :=
  match pbs with
  | [] => Rel act sup Af G
  | (p, bs) :: rest => (forall j, In j (0%nat :: rm p act) -> Af p j = G p j /\ (sup p j = false -> Af p j = 0)) /\
                       stageOK rest (rm p act) (supNext sup p bs) (elimAll p G) Af
  end.
Definition progOf (pbs : list (nat * list block)) : list stmt22 := concat (map (fun pb : nat * list block => concat (map (flat (fst pb)) (snd pb))) pbs).

Lemma pivot_spec act sup p bs A G d q : NoDup act -> In p act -> ~ In 0%nat act -> pivotOK act sup p bs = true -> Rel act sup A G ->
  ((exists Af, exec22 (concat (map (flat p) bs) ++ q) A d = Some Af) -> forall i, In i (rm p act) -> 1 - G i p * G p i <> 0) /\
  ((forall i, In i (rm p act) -> 1 - G i p * G p i <> 0) ->
     exists A' d', exec22 (concat (map (flat p) bs) ++ q) A d = exec22 q A' d' /\
       (forall r c, ~ In r (rm p act) -> A' r c = A r c) /\ Rel (rm p act) (supNext sup p bs) A' (elimAll p G)).
Proof.
  intros N P Z0 B RL. unfold pivotOK in B. apply andb_prop in B as [B B3]. apply andb_prop in B as [B1 B2]. apply nodupb_ok in B2.
  rewrite forallb_forall in B3.
  assert (INR : forall i, In i (rowsOf bs) -> In i (rm p act)).
  { intros i I. unfold rowsOf in I. apply in_map_iff in I as ([[i' a] dv] & E & I). cbn in E; subst i'. rewrite forallb_forall in B1. exact (proj2 (blockOK_divs _ _ _ _ _ _ (B1 _ I))). }
  assert (ZZ : forall r j, In r act -> In j (0%nat :: act) -> j <> r -> sup r j = false -> A r j = 0) by (intros r j I J NE; exact (proj2 (RL r j I J NE))).
  assert (GE : forall r j, In r act -> In j (0%nat :: act) -> j <> r -> A r j = G r j) by (intros r j I J NE; exact (proj1 (RL r j I J NE))).
  destruct (blocks_run act sup p q N P Z0 bs A d B1 B2) as [S1 S2].
  { intros r j [R0| ->] J NE; apply ZZ; auto. apply INR, in_rm in R0. tauto. }
  assert (DE : forall i, In i (rm p act) -> 1 - A i p * A p i = 1 - G i p * G p i).
  { intros i I. apply in_rm in I as [I1 I2]. rewrite !GE; auto; now right. }
  assert (NR : forall i, In i (rm p act) -> ~ In i (rowsOf bs) -> A i p = 0).
  { intros i I NI. pose proof (B3 i I) as C. rewrite (proj2 (inb_false i (rowsOf bs)) NI), orb_false_r in C. apply negb_true_iff in C.
    apply in_rm in I as [I1 I2]. apply ZZ; auto. now right. }
  split.
  - intros F i I. rewrite <- DE by assumption. destruct (in_dec Nat.eq_dec i (rowsOf bs)) as [IR|NI]; [now apply S1|]. rewrite (NR i I NI). lra.
  - intros D. destruct S2 as (A' & d' & X1 & X2 & X3).
    { intros i I. rewrite DE by (now apply INR). apply D. now apply INR. }
    exists A', d'. split; [exact X1|]. split; [intros r c R0; apply X2; intros F; apply R0; now apply INR|].
    intros i j I J NE. pose proof I as I'. apply in_rm in I' as [I1 I2].
    assert (J1 : In j (0%nat :: act)) by (destruct J as [J|J]; [now left|right; apply in_rm in J; tauto]).
    assert (JP : j <> p) by (intros ->; destruct J as [J|J]; [subst; contradiction|apply in_rm in J; tauto]).
    unfold supNext. destruct (in_dec Nat.eq_dec i (rowsOf bs)) as [IR|NI].
    + rewrite (proj2 (inb_iff i (rowsOf bs)) IR). cbn [andb]. destruct (X3 i IR j J NE) as [Y1 Y2]. split; [|exact Y2].
      rewrite Y1. unfold elimAll. rewrite !GE; auto; now right.
    + rewrite (proj2 (inb_false i (rowsOf bs)) NI). cbn [andb]. rewrite orb_false_r, X2 by assumption. split; [|intros S0; apply ZZ; auto].
      unfold elimAll. rewrite <- (GE i p), (NR i I NI), GE; auto; [field|now right].
Qed.

Lemma prog_spec pbs : forall act sup A G d, NoDup act -> ~ In 0%nat act -> progOK pbs act sup = true -> Rel act sup A G ->
  ((exists Af, exec22 (progOf pbs) A d = Some Af) -> pivots (map fst pbs) act G) /\
  (pivots (map fst pbs) act G -> exists Af, exec22 (progOf pbs) A d = Some Af /\ stageOK pbs act sup G Af /\ (forall r c, ~ In r act -> Af r c = A r c)).
Proof.
  induction pbs as [|[p bs] rest IH]; intros act sup A G d N Z0 B RL.
  - split; [intros _; exact Logic.I|]. intros _. exists A. cbn. auto.
  - cbn [progOK] in B. apply andb_prop in B as [B B3]. apply andb_prop in B as [B1 B2]. apply inb_iff in B1.
    unfold progOf. cbn [map concat fst snd]. fold (progOf rest).
    destruct (pivot_spec act sup p bs A G d (progOf rest) N B1 Z0 B2 RL) as [S1 S2]. cbn [pivots].
    assert (Z1 : ~ In 0%nat (rm p act)) by (intros F; apply in_rm in F; tauto).
    split.
    + intros F. pose proof (S1 F) as D. split; [exact D|]. destruct (S2 D) as (A' & d' & X1 & X2 & X3).
      destruct (IH (rm p act) _ A' (elimAll p G) d' (nodup_rm p act N) Z1 B3 X3) as [T1 _]. apply T1. destruct F as [Af F]. exists Af. now rewrite <- X1.
    + intros [D PV]. destruct (S2 D) as (A' & d' & X1 & X2 & X3).
      destruct (IH (rm p act) _ A' (elimAll p G) d' (nodup_rm p act N) Z1 B3 X3) as [_ T2]. destruct (T2 PV) as (Af & Y1 & Y2 & Y3).
      exists Af. split; [now rewrite X1|]. split; [split; [|exact Y2]|].
      * intros j J. assert (PN : ~ In p (rm p act)) by (intros F; apply in_rm in F; tauto). rewrite Y3, X2 by assumption.
        destruct (RL p j B1) as [R1 R2]; [destruct J as [J|J]; [now left|right; apply in_rm in J; tauto]|intros ->; destruct J as [J|J]; [subst; contradiction|apply in_rm in J; tauto]|]. auto.
      * intros r c R0. assert (~ In r (rm p act)) by (intros F; apply in_rm in F; tauto). rewrite Y3, X2; auto.
Qed.

(** the back substitution *)
Fixpoint backOK (seen : list nat) (back : list (nat * list nat)) : bool :=
  match back with
  | [] => true
  | (i, js) :: rest => negb (inb i seen) && nodupb js && forallb (fun j => inb j seen) js && backOK (i :: seen) rest
  end.
Definition backStep (A : matrix) (X : nat -> R) (ijs : nat * list nat) : nat -> R :=
  fun r => if (r =? fst ijs)%nat then fold_left (fun s j => s + A (fst ijs) j * X j) (snd ijs) (A (fst ijs) 0%nat) else X r.
Lemma fold_sum l (f : nat -> R) : forall a, fold_left (fun s j => s + f j) l a = a + sumL l f.
Proof. induction l as [|x l IH]; intros a; [rewrite sumL_nil; cbn; lra|]. cbn [fold_left]. rewrite IH, sumL_cons. lra. Qed.
Lemma back_spec A back : forall seen X, backOK seen back = true ->
  let X' := fold_left (backStep A) back X in
  (forall r, ~ In r (map fst back) -> X' r = X r) /\ (forall r, In r seen -> X' r = X r) /\
  (forall i js, In (i, js) back -> X' i = A i 0%nat + sumL js (fun j => A i j * X' j)).
Proof.
  induction back as [|[i js] rest IH]; intros seen X B; cbn zeta; [repeat split; auto; intros ? ? []|].
  cbn [backOK] in B. apply andb_prop in B as [B B4]. apply andb_prop in B as [B B3]. apply andb_prop in B as [B1 B2].
  apply negb_true_iff, inb_false in B1. rewrite forallb_forall in B3. cbn [fold_left].
  destruct (IH (i :: seen) (backStep A X (i, js)) B4) as (H1 & H2 & H3). cbv zeta in H1, H2, H3. set (X' := fold_left (backStep A) rest (backStep A X (i, js))) in *.
  assert (O : forall r, r <> i -> backStep A X (i, js) r = X r) by (intros r H; unfold backStep; cbn [fst]; now rewrite (proj2 (Nat.eqb_neq r i) H)).
  repeat split.
  - intros r R0. cbn [map fst In] in R0. rewrite H1 by tauto. apply O. intros ->. tauto.
  - intros r R0. rewrite H2 by (now right). apply O. intros ->. contradiction.
  - intros i0 js0 [E|I]; [|now apply H3]. injection E as <- <-. rewrite (H2 i (or_introl eq_refl)). unfold backStep at 1. cbn [fst snd]. rewrite Nat.eqb_refl.
    rewrite (fold_sum js (fun j => A i j * X j)). f_equal. apply sumL_ext. intros j J. f_equal. pose proof (B3 j J) as S0. apply inb_iff in S0.
    rewrite H2 by (now right). symmetry. apply O. intros ->. contradiction.
Qed.

(** the columns used in the back substitution of each row are the ones that matter *)
Definition usesOK (act : list nat) (sup : supp) (back : list (nat * list nat)) (p : nat) : bool :=
  match find (fun ijs : nat * list nat => (fst ijs =? p)%nat) back with
  | None => false
  | Some (_, js) => nodupb js && forallb (fun j => inb j (rm p act)) js && forallb (fun j => negb (sup p j) || inb j js) (rm p act)
  end.
Fixpoint finishOK (pbs : list (nat * list block)) (act : list nat) (sup : supp) (back : list (nat * list nat)) : bool :=
  match pbs with
  | [] => forallb (usesOK act sup back) act
  | (p, bs) :: rest => usesOK act sup back p && finishOK rest (rm p act) (supNext sup p bs) back
  end.
Lemma uses_spec act sup back p (A : matrix) (G : mat) X : NoDup act -> usesOK act sup back p = true ->
  (forall i js, In (i, js) back -> X i = A i 0%nat + sumL js (fun j => A i j * X j)) ->
  (forall j, In j (0%nat :: rm p act) -> A p j = G p j /\ (sup p j = false -> A p j = 0)) -> rowOK act G X p.
Proof.
  intros N U HX HA. unfold usesOK in U. destruct (find _ back) as [[i js]|] eqn:F; [|discriminate]. apply find_some in F as [F1 F2]. cbn in F2. apply Nat.eqb_eq in F2. subst i.
  apply andb_prop in U as [U U3]. apply andb_prop in U as [U1 U2]. apply nodupb_ok in U1. rewrite forallb_forall in U2, U3.
  unfold rowOK. rewrite (HX p js F1). rewrite (proj1 (HA 0%nat (or_introl eq_refl))). f_equal. symmetry.
  transitivity (sumL (rm p act) (fun j => A p j * X j)).
  - apply sumL_ext. intros j J. now rewrite (proj1 (HA j (or_intror J))).
  - apply sumL_part; [now apply nodup_rm|exact U1|intros i I; apply inb_iff; now apply U2|].
    intros j J NJ. pose proof (U3 j J) as C. rewrite (proj2 (inb_false j js) NJ), orb_false_r in C. apply negb_true_iff in C. rewrite (proj2 (HA j (or_intror J)) C). ring.
Qed.
Lemma finish_spec pbs : forall act sup back A G X, NoDup act -> ~ In 0%nat act -> finishOK pbs act sup back = true ->
  (forall i js, In (i, js) back -> X i = A i 0%nat + sumL js (fun j => A i j * X j)) -> stageOK pbs act sup G A -> solved (map fst pbs) act G X.
Proof.
  induction pbs as [|[p bs] rest IH]; intros act sup back A G X N Z0 F HX ST; cbn [finishOK stageOK solved map fst] in *.
  - intros i I. rewrite forallb_forall in F. apply (uses_spec act sup back i A G X N (F i I) HX). intros j J. apply ST; [exact I| |].
    + destruct J as [J|J]; [now left|right; apply in_rm in J; tauto].
    + intros ->. destruct J as [J|J]; [subst; contradiction|apply in_rm in J; tauto].
  - apply andb_prop in F as [F1 F2]. destruct ST as [S1 S2]. split; [exact (uses_spec act sup back p A G X N F1 HX S1)|].
    apply (IH _ _ back A _ X (nodup_rm p act N)) with (2 := F2); auto. intros K. apply in_rm in K. tauto.
Qed.
