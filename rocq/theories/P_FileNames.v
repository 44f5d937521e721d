(** C144: output files sort by name in the order of the steps and of the blocks. *)
From Coq Require Import Reals ZArith NArith String Ascii List Bool Lia Decimal DecimalFacts DecimalN.
From Verif Require Import M_Topology M_Halo M_Grid M_Metrics M_Procs L_Procs S_Procs P_Procs M_Io S_Io L_Io S_FileNames.
Import ListNotations.
Open Scope N_scope.

Definition digits (l : list ascii) : Prop := forall c, In c l -> (48 <= nat_of_ascii c <= 57)%nat.
Lemma value_bound l : forall acc, digits l -> acc * 10 ^ N.of_nat (List.length l) <= value l acc < (acc + 1) * 10 ^ N.of_nat (List.length l).
Proof.
  induction l as [|c l IH]; intros acc D; cbn [value List.length]; [cbn; lia|]. rewrite Nat2N.inj_succ, N.pow_succ_r'.
  assert (Dc : (48 <= nat_of_ascii c <= 57)%nat) by (apply D; now left). specialize (IH (10 * acc + (N.of_nat (nat_of_ascii c) - 48)) (fun x I => D x (or_intror I))).
  set (P := 10 ^ N.of_nat (List.length l)) in *. set (d := N.of_nat (nat_of_ascii c) - 48) in *. assert (d <= 9) by (unfold d; lia). nia.
Qed.
(** numbers of equal width compare as their digits do *)
Lemma value_lt l : forall l' a b, List.length l = List.length l' -> digits l -> digits l' -> a < b -> value l a < value l' b.
Proof.
  intros l' a b E D D' H. pose proof (value_bound l a D) as [_ U]. pose proof (value_bound l' b D') as [Lo _]. rewrite <- E in Lo. set (P := 10 ^ N.of_nat (List.length l)) in *.
  assert ((a + 1) * P <= b * P) by (apply N.mul_le_mono_r; lia). lia.
Qed.
Lemma ascii_code c d : nat_of_ascii c = nat_of_ascii d -> c = d.
Proof. intros H. rewrite <- (ascii_nat_embedding c), <- (ascii_nat_embedding d). now rewrite H. Qed.
Lemma order_digits l : forall l' a, List.length l = List.length l' -> digits l -> digits l' -> (sortsBefore l l' <-> value l a < value l' a).
Proof.
  induction l as [|c l IH]; intros [|d l'] a E D D'; try discriminate; [split; [intros H; inversion H | cbn; lia]|].
  assert (E' : List.length l = List.length l') by (cbn in E; lia). assert (Dl : digits l) by (intros x I; apply D; now right). assert (Dl' : digits l') by (intros x I; apply D'; now right).
  assert (Dc : (48 <= nat_of_ascii c <= 57)%nat) by (apply D; now left). assert (Dd : (48 <= nat_of_ascii d <= 57)%nat) by (apply D'; now left). cbn [value].
  destruct (Nat.lt_trichotomy (nat_of_ascii c) (nat_of_ascii d)) as [H | [H | H]].
  - split; intros _; [apply value_lt; auto; lia | now constructor].
  - apply ascii_code in H. subst d. rewrite <- (IH l' _ E' Dl Dl'). split; intros X; [inversion X; subst; [lia | assumption] | now constructor].
  - assert (V : value l' (10 * a + (N.of_nat (nat_of_ascii d) - 48)) < value l (10 * a + (N.of_nat (nat_of_ascii c) - 48))) by (apply value_lt; auto; lia).
    split; intros X; [inversion X; subst; lia | lia].
Qed.
(** the numeral of a number has no leading zero, so that n < 10^w has at most w digits *)
Lemma nzhead_head d : match nzhead d with D0 _ => False | _ => True end.
Proof. induction d; cbn [nzhead]; auto. Qed.
Lemma printN_short w n : (0 < w)%nat -> n < 10 ^ N.of_nat w -> (List.length (printN n) <= w)%nat.
Proof.
  intros Hw Hn. destruct (Nat.le_gt_cases (List.length (printN n)) w) as [L | L]; [exact L | exfalso].
  assert (Nz : exists c r, printN n = c :: r /\ ((49 <= nat_of_ascii c)%nat \/ r = [])).
  { unfold printN. rewrite <- (DecimalN.Unsigned.of_to n). rewrite DecimalN.Unsigned.to_of. unfold unorm. pose proof (nzhead_head (N.to_uint n)) as H. destruct (nzhead (N.to_uint n)); try contradiction; cbn [uintText]; (eexists; eexists; split; [reflexivity|]); (left; cbn; lia) || (right; reflexivity). }
  destruct Nz as (c & r & E & [Hc | ->]); [|rewrite E in L; cbn in L; lia].
  destruct (C62_numerals n) as (_ & D & V). rewrite E in V, D, L. cbn [value List.length] in V, L.
  pose proof (value_bound r (10 * 0 + (N.of_nat (nat_of_ascii c) - 48)) (fun x I => D x (or_intror I))) as [B _]. rewrite V in B.
  assert (P : 10 ^ N.of_nat w <= 10 ^ N.of_nat (List.length r)) by (apply N.pow_le_mono_r; lia).
  assert (Q : 1 * 10 ^ N.of_nat (List.length r) <= (10 * 0 + (N.of_nat (nat_of_ascii c) - 48)) * 10 ^ N.of_nat (List.length r)) by (apply N.mul_le_mono_r; lia). lia.
Qed.
Lemma padded_length w n : (0 < w)%nat -> n < 10 ^ N.of_nat w -> List.length (padded w n) = w.
Proof. intros Hw Hn. unfold padded. pose proof (printN_short w n Hw Hn). rewrite app_length, repeat_length. lia. Qed.
Lemma padded_digits w n : digits (padded w n).
Proof. intros c I. unfold padded in I. apply in_app_or in I. destruct I as [I | I]; [apply repeat_spec in I; subst c; cbn; lia | destruct (C62_numerals n) as (_ & D & _); now apply D]. Qed.
Lemma padded_order w n m : (0 < w)%nat -> n < 10 ^ N.of_nat w -> m < 10 ^ N.of_nat w -> (sortsBefore (padded w n) (padded w m) <-> n < m).
Proof.
  intros Hw Hn Hm. rewrite (order_digits _ _ 0) by (rewrite ?padded_length by assumption; auto using padded_digits). now rewrite !padded_value.
Qed.
Lemma sorts_prefix p r s : sortsBefore (p ++ r) (p ++ s) <-> sortsBefore r s.
Proof. induction p as [|c p IH]; [reflexivity|]. cbn [app]. rewrite <- IH. split; intros H; [inversion H; subst; [lia | assumption] | now constructor]. Qed.
Lemma sorts_irrefl l : ~ sortsBefore l l.
Proof. induction l as [|c l IH]; intros H; inversion H; subst; [lia | auto]. Qed.
Lemma sorts_blocks r : forall s x y, List.length r = List.length s -> (sortsBefore (r ++ x) (s ++ y) <-> sortsBefore r s \/ r = s /\ sortsBefore x y).
Proof.
  induction r as [|c r IH]; intros [|d s] x y E; try discriminate; cbn [app]; [split; [now right | intros [H | [_ H]]; [inversion H | exact H]]|].
  assert (E' : List.length r = List.length s) by (cbn in E; lia). split.
  - intros H. inversion H; subst; [left; now constructor|]. match goal with X : sortsBefore (r ++ x) (s ++ y) |- _ => apply IH in X; [destruct X as [X | [-> X]]; [left; now constructor | right; split; [reflexivity | exact X]] | exact E'] end.
  - intros [H | [H X]]; [inversion H; subst; [now constructor | apply SB_later; apply IH; [exact E' | now left]] | injection H as <- <-; apply SB_later; apply IH; [exact E' | now right]].
Qed.
Lemma two_fields n m a b x : n < 10 ^ 8 -> m < 10 ^ 8 -> a < 10 ^ 6 -> b < 10 ^ 6 ->
  (sortsBefore (padded 8 n ++ t "." ++ padded 6 a ++ x) (padded 8 m ++ t "." ++ padded 6 b ++ x) <-> n < m \/ n = m /\ a < b).
Proof.
  intros Hn Hm Ha Hb. assert (H8 : (0 < 8)%nat) by lia. assert (H6 : (0 < 6)%nat) by lia.
  rewrite sorts_blocks by now rewrite !padded_length. rewrite (padded_order 8) by auto. rewrite sorts_prefix, sorts_blocks by now rewrite !padded_length. rewrite (padded_order 6) by auto. split.
  - intros [H | [E [H | [_ H]]]]; [now left | right; split; [exact (padded_inj 8 n m E) | exact H] | elim (sorts_irrefl _ H)].
  - intros [H | [-> H]]; [now left | right; split; [reflexivity | now left]].
Qed.
Lemma one_field w n m x : (0 < w)%nat -> n < 10 ^ N.of_nat w -> m < 10 ^ N.of_nat w -> (sortsBefore (padded w n ++ x) (padded w m ++ x) <-> n < m).
Proof.
  intros Hw Hn Hm. rewrite sorts_blocks by now rewrite !padded_length. rewrite padded_order by assumption. split; [intros [H | [_ H]]; [exact H | elim (sorts_irrefl _ H)] | now left].
Qed.

(** The result files of an animation sort by step, and those of one step by block; single result files by block; the same for the files of the dual-time history.  Step numbers of up to eight digits,
    block numbers of up to six. *)
Theorem C144_results_sorted : forall n m a b, n < 10 ^ 8 -> m < 10 ^ 8 -> a < 10 ^ 6 -> b < 10 ^ 6 ->
  (sortsBefore (varFileName true true n a) (varFileName true true m b) <-> n < m) /\
  (sortsBefore (varFileName false true n a) (varFileName false true m b) <-> n < m \/ n = m /\ a < b) /\
  (sortsBefore (varFileName false false n a) (varFileName false false m b) <-> a < b).
Proof.
  intros n m a b Hn Hm Ha Hb. unfold varFileName. rewrite !sorts_prefix. split; [|split].
  - apply (one_field 8); auto; lia.
  - now apply two_fields.
  - apply (one_field 6); auto; lia.
Qed.
Theorem C144_history_sorted : forall n m a b, n < 10 ^ 8 -> m < 10 ^ 8 -> a < 10 ^ 6 -> b < 10 ^ 6 ->
  (sortsBefore (qnm1Name true n a) (qnm1Name true m b) <-> n < m \/ n = m /\ a < b) /\
  (sortsBefore (qnm1Name false n a) (qnm1Name false m b) <-> a < b).
Proof.
  intros n m a b Hn Hm Ha Hb. unfold qnm1Name. rewrite !sorts_prefix. split; [now apply two_fields | apply (one_field 6); auto; lia].
Qed.
(** the names themselves: the number with leading zeros, and nothing else *)
Theorem C144_fixed_width : forall w n, (0 < w)%nat -> n < 10 ^ N.of_nat w -> List.length (padded w n) = w /\ isNumeral (padded w n) n.
Proof.
  intros w n Hw Hn. split; [now apply padded_length|]. split; [intros E; pose proof (padded_length w n Hw Hn) as L; rewrite E in L; cbn in L; lia | split; [exact (padded_digits w n) | apply padded_value]].
Qed.
Example C144_example : varFileName true true 1234 0 = t "q.00001234.h5" /\ sortsBefore (t "q.00000999.h5") (t "q.00001000.h5") /\
  (* a step number of nine digits sorts before one of eight *) sortsBefore (varFileName true true (10 ^ 8) 0) (varFileName true true (10 ^ 8 - 1) 0).
Proof.
  split; [reflexivity|]. split; [change (sortsBefore (varFileName true true 999 0) (varFileName true true 1000 0)); apply C144_results_sorted; reflexivity|].
  unfold varFileName. apply sorts_prefix. apply SB_here. cbn. lia.
Qed.
Print Assumptions C144_results_sorted. Print Assumptions C144_history_sorted. Print Assumptions C144_fixed_width.
