(** Lemmas about the text of a blocksForProcs file. *)
From Coq Require Import ZArith NArith Ascii List Bool Lia Permutation DecimalN.
From Verif Require Import M_Procs S_Procs.
Import ListNotations.

Lemma nat_ascii_eq c d : nat_of_ascii c = nat_of_ascii d -> c = d.
Proof. intros H. rewrite <- (ascii_nat_embedding c), <- (ascii_nat_embedding d), H. reflexivity. Qed.
Definition isDigit (c : ascii) : Prop := (48 <= nat_of_ascii c <= 57)%nat.
Lemma digit_not c d : isDigit c -> ~ isDigit d -> Ascii.eqb c d = false.
Proof. intros H N. apply Ascii.eqb_neq. intros ->. auto. Qed.
Lemma digit_space c : isDigit c -> isSpace c = false.
Proof. unfold isDigit, isSpace. intros H. cbv zeta. apply orb_false_iff. rewrite !andb_false_iff, !Nat.leb_gt. lia. Qed.
Lemma space_iff c : isSpace c = true <-> (9 <= nat_of_ascii c <= 13 \/ 28 <= nat_of_ascii c <= 32)%nat.
Proof. unfold isSpace. cbv zeta. rewrite orb_true_iff, !andb_true_iff, !Nat.leb_le. lia. Qed.
Lemma ws_space l : whitespace l -> forall c, In c l -> isSpace c = true.
Proof. intros H c I. destruct (H c I) as [-> | ->]; reflexivity. Qed.
Lemma uint_digits u : forall c, In c (uintText u) -> isDigit c.
Proof. induction u; cbn [uintText In]; intros c H; try contradiction; destruct H as [<- | H]; auto; unfold isDigit; cbn; lia. Qed.
Lemma printN_digits n c : In c (printN n) -> isDigit c.
Proof. apply uint_digits. Qed.
Lemma uintText_nil u : uintText u = [] -> u = Decimal.Nil.
Proof. destruct u; cbn; congruence. Qed.
Lemma printN_nonempty n : printN n <> [].
Proof.
  unfold printN. intros H. apply uintText_nil in H. assert (E := DecimalN.Unsigned.of_to n). rewrite H in E. cbn in E. subst n. cbn in H. discriminate.
Qed.
Lemma digits_uint u b : (b = true \/ u <> Decimal.Nil) -> digits b (uintText u) = Some u.
Proof.
  revert b. induction u; intros b H; [destruct b; [reflexivity | destruct H; congruence] | .. ];
    cbn [uintText digits]; cbn [Ascii.eqb Bool.eqb]; rewrite IHu by (left; reflexivity); reflexivity.
Qed.
Lemma lstrip_id t : (forall c, In c t -> isSpace c = true) -> forall r, lstrip (t ++ r) = lstrip r.
Proof. induction t as [|c t IH]; cbn [app lstrip]; intros H r; [reflexivity | ]. rewrite (H c (or_introl eq_refl)). apply IH. intros; apply H; right; assumption. Qed.
Definition headSolid (t : text) : Prop := match t with c :: _ => isSpace c = false | [] => False end.
Lemma lstrip_solid t : headSolid t -> lstrip t = t.
Proof. destruct t; cbn; [contradiction | ]. intros ->. reflexivity. Qed.
Lemma headSolid_app t r : headSolid t -> headSolid (t ++ r).
Proof. destruct t; cbn; [contradiction | auto]. Qed.
Lemma strip_core a t b : whitespace a -> whitespace b -> headSolid t -> headSolid (rev t) -> strip (a ++ t ++ b) = t.
Proof.
  intros A B H T. unfold strip. rewrite (lstrip_id a) by (apply ws_space; exact A). rewrite (lstrip_solid (t ++ b)) by (apply headSolid_app; exact H).
  rewrite rev_app_distr, (lstrip_id (rev b)) by (intros c I; apply (ws_space b B); apply in_rev; exact I). rewrite (lstrip_solid _ T). apply rev_involutive.
Qed.
Lemma strip_blank a : whitespace a -> strip a = [].
Proof. intros A. unfold strip. rewrite <- (app_nil_r a), (lstrip_id a) by (apply ws_space; exact A). reflexivity. Qed.
Lemma digits_head t : t <> [] -> (forall c, In c t -> isDigit c) -> headSolid t.
Proof. destruct t as [|c t]; [congruence | ]. intros _ H. cbn. apply digit_space, H. left. reflexivity. Qed.
Lemma printN_solid n : headSolid (printN n) /\ headSolid (rev (printN n)).
Proof.
  split; apply digits_head; try apply printN_nonempty; try apply printN_digits.
  - intros H. apply (printN_nonempty n). rewrite <- (rev_involutive (printN n)), H. reflexivity.
  - intros c I. apply (printN_digits n). apply in_rev. exact I.
Qed.
Lemma pyInt_print a n b : whitespace a -> whitespace b -> pyInt (a ++ printN n ++ b) = Some (Z.of_N n).
Proof.
  intros A B. unfold pyInt. destruct (printN_solid n) as [S1 S2]. rewrite (strip_core a _ b A B S1 S2).
  assert (D := printN_digits n). assert (N := printN_nonempty n). assert (E : digits false (printN n) = Some (N.to_uint n)).
  { unfold printN. apply digits_uint. right. intros H. unfold printN in N. rewrite H in N. cbn in N. congruence. }
  destruct (printN n) as [|c r] eqn:P; [congruence | ]. rewrite (digit_not c "-") by (try (apply D; left; reflexivity); unfold isDigit; cbn; lia).
  rewrite (digit_not c "+") by (try (apply D; left; reflexivity); unfold isDigit; cbn; lia). rewrite E. cbn [option_map]. f_equal. f_equal. apply DecimalN.Unsigned.of_to.
Qed.
(** splitting *)
Definition noComma (t : text) : Prop := forall c, In c t -> Ascii.eqb c "," = false.
Lemma split_one t : noComma t -> splitComma t = [t].
Proof. induction t as [|c t IH]; intros H; cbn [splitComma]; [reflexivity | ]. rewrite (H c (or_introl eq_refl)), IH by (intros d I; apply H; right; exact I). reflexivity. Qed.
Lemma split_cons t r : noComma t -> splitComma (t ++ ","%char :: r) = t :: splitComma r.
Proof.
  induction t as [|c t IH]; intros H; [reflexivity | ]. cbn [app splitComma]. rewrite (H c (or_introl eq_refl)), IH by (intros d I; apply H; right; exact I). reflexivity.
Qed.
Lemma ws_noComma a : whitespace a -> noComma a.
Proof. intros A c I. destruct (A c I) as [-> | ->]; reflexivity. Qed.
Lemma print_noComma n : noComma (printN n).
Proof. intros c I. apply digit_not; [apply (printN_digits n c I) | unfold isDigit; cbn; lia]. Qed.
Lemma noComma_app a b : noComma a -> noComma b -> noComma (a ++ b).
Proof. intros A B c I. apply in_app_or in I. destruct I; auto. Qed.
Lemma mapM_app {A B} (f : A -> option B) l1 l2 r1 r2 : mapM f l1 = Some r1 -> mapM f l2 = Some r2 -> mapM f (l1 ++ l2) = Some (r1 ++ r2).
Proof.
  revert r1. induction l1 as [|a l IH]; cbn [mapM app]; intros r1 H1 H2; [injection H1 as <-; exact H2 | ].
  destruct (f a) as [b|]; [ | discriminate]. destruct (mapM f l) as [bs|]; [ | discriminate]. injection H1 as <-. rewrite (IH bs eq_refl H2). reflexivity.
Qed.
Lemma mapM_none {A B} (f : A -> option B) l1 l2 : mapM f (l1 ++ l2) = match mapM f l1, mapM f l2 with Some a, Some b => Some (a ++ b) | _, _ => None end.
Proof.
  induction l1 as [|a l IH]; cbn [mapM app]; [destruct (mapM f l2); reflexivity | ]. rewrite IH. destruct (f a); [ | reflexivity]. destruct (mapM f l); [ | reflexivity]. destruct (mapM f l2); reflexivity.
Qed.

(** a line of numbers: n , m , ... with white space anywhere around the commas, and perhaps a final comma *)
Definition moreItems (rest : list (text * text * N)) : text := flat_map (fun '(a, b, m) => a ++ ","%char :: b ++ printN m) rest.
Definition finalComma (o : option text) : text := match o with None => [] | Some a => a ++ [","%char] end.
Definition numberLine (w1 : text) (n : N) (rest : list (text * text * N)) (o : option text) (w2 : text) : text :=
  w1 ++ (printN n ++ moreItems rest ++ finalComma o) ++ w2.
Definition padsOk (rest : list (text * text * N)) (o : option text) : Prop :=
  (forall a b m, In (a, b, m) rest -> whitespace a /\ whitespace b) /\ match o with None => True | Some a => whitespace a end.
Lemma split_items rest : forall o h, padsOk rest o -> noComma h ->
  exists pieces l, splitComma (h ++ moreItems rest ++ finalComma o) = pieces ++ [l] /\
    (match o with Some _ => l = [] | None => l <> [] \/ (pieces = [] /\ l = h) end) /\
    (forall hn, (forall a, whitespace a -> pyInt (h ++ a) = Some hn) -> mapM pyInt (match o with Some _ => pieces | None => pieces ++ [l] end) = Some (hn :: map (fun x => Z.of_N (snd x)) rest)).
Proof.
  induction rest as [|[[a b] m] rest IH]; intros o h [P Q] Hh.
  - cbn [moreItems flat_map]. rewrite app_nil_l. destruct o as [a|]; cbn [finalComma].
    + exists [h ++ a], []. rewrite app_assoc, split_cons by (apply noComma_app; [exact Hh | apply ws_noComma; exact Q]). split; [reflexivity | ]. split; [reflexivity | ].
      intros hn E. cbn [mapM map]. rewrite (E a Q). reflexivity.
    + exists [], h. rewrite app_nil_r, split_one by exact Hh. split; [reflexivity | ]. split; [right; auto | ]. intros hn E. cbn [app mapM map].
      assert (E0 := E [] (fun _ (f : In _ []) => match f with end)). rewrite app_nil_r in E0. rewrite E0. reflexivity.
  - destruct (P a b m (or_introl eq_refl)) as [Wa Wb]. cbn [moreItems flat_map]. fold (moreItems rest).
    replace (h ++ ((a ++ ","%char :: b ++ printN m) ++ moreItems rest) ++ finalComma o) with ((h ++ a) ++ ","%char :: (b ++ printN m) ++ moreItems rest ++ finalComma o) by (rewrite <- !app_assoc; cbn [app]; rewrite <- !app_assoc; reflexivity).
    rewrite split_cons by (apply noComma_app; [exact Hh | apply ws_noComma; exact Wa]).
    destruct (IH o (b ++ printN m)) as (ps & l & E & L & M); [split; [intros; apply (P a0 b0 m0); right; assumption | exact Q] | apply noComma_app; [apply ws_noComma; exact Wb | apply print_noComma] | ].
    exists ((h ++ a) :: ps), l. rewrite E. split; [reflexivity | ]. split.
    + destruct o; [exact L | ]. destruct L as [L | [_ ->]]; [left; exact L | left]. intros H. apply app_eq_nil in H. apply (printN_nonempty m). apply H.
    + intros hn Hn. cbn [map]. specialize (M (Z.of_N m)). assert (M' := M ltac:(intros x Wx; rewrite <- app_assoc; apply pyInt_print; assumption)).
      destruct o; cbn [app mapM]; rewrite (Hn a Wa), M'; reflexivity.
Qed.
Lemma last_app {A} (l : list A) x d : last (l ++ [x]) d = x.
Proof. induction l as [|a l IH]; [reflexivity | ]. cbn [app last]. destruct (l ++ [x]) eqn:E; [destruct l; discriminate | exact IH]. Qed.
Lemma core_solid n rest o : headSolid (printN n ++ moreItems rest ++ finalComma o) /\ headSolid (rev (printN n ++ moreItems rest ++ finalComma o)).
Proof.
  split; [apply headSolid_app, printN_solid | ]. destruct o as [a|]; cbn [finalComma].
  - rewrite !app_assoc, rev_app_distr. reflexivity.
  - rewrite app_nil_r, rev_app_distr. destruct rest as [|x rest] using rev_ind; [cbn [moreItems flat_map rev app]; apply printN_solid | ].
    unfold moreItems. rewrite flat_map_app. cbn [flat_map]. destruct x as [[a b] m]. rewrite app_nil_r, rev_app_distr, rev_app_distr. cbn [rev]. rewrite rev_app_distr, <- !app_assoc.
    apply headSolid_app, printN_solid.
Qed.
Lemma parse_numberLine w1 n rest o w2 : whitespace w1 -> whitespace w2 -> padsOk rest o ->
  startsHash (strip (numberLine w1 n rest o w2)) = false /\ parseLine (numberLine w1 n rest o w2) = Some (Z.of_N n :: map (fun x => Z.of_N (snd x)) rest).
Proof.
  intros W1 W2 P. unfold parseLine, numberLine. destruct (core_solid n rest o) as [S1 S2]. rewrite (strip_core _ _ _ W1 W2 S1 S2). split.
  - assert (N := printN_nonempty n). assert (D := printN_digits n). destruct (printN n) as [|c r]; [congruence | ]. cbn [app startsHash]. apply digit_not; [apply D; left; reflexivity | unfold isDigit; cbn; lia].
  - destruct (split_items rest o (printN n) P (print_noComma n)) as (ps & l & E & L & M). cbv zeta. rewrite E, last_app, removelast_last.
    specialize (M (Z.of_N n) ltac:(intros x Wx; apply (pyInt_print [] n x); [intros ? [] | exact Wx])).
    destruct o as [a|].
    + subst l. exact M.
    + assert (l <> []) by (destruct L as [L | [_ ->]]; [exact L | apply printN_nonempty]). destruct l; [congruence | exact M].
Qed.
(** lines *)
Definition plain (l : text) : Prop := forall c, In c l -> lineBreak true c = false.
Lemma break_weaker p c : lineBreak true c = false -> lineBreak p c = false.
Proof. unfold lineBreak. cbv zeta. intros H. apply orb_false_iff in H. destruct H as [H1 H2]. cbn [andb] in H2. rewrite H1, H2. destruct p; reflexivity. Qed.
Lemma oneLine_plain l : oneLine l -> plain l.
Proof.
  intros H c I. destruct (H c I) as [G | ->]; [ | reflexivity]. unfold lineBreak. cbv zeta. cbn [andb]. rewrite !orb_false_iff, andb_false_iff, !Nat.eqb_neq, !Nat.leb_gt. lia.
Qed.
Lemma plain_noCr l : plain l -> forall c, In c l -> Ascii.eqb c cr = false.
Proof. intros H c I. apply Ascii.eqb_neq. intros ->. discriminate (H _ I). Qed.
Lemma crlf_app l r : plain l -> crlf (l ++ r) = l ++ crlf r.
Proof. induction l as [|c l IH]; intros H; [reflexivity | ]. cbn [app crlf]. rewrite (plain_noCr _ H c (or_introl eq_refl)), IH by (intros d I; apply H; right; exact I). reflexivity. Qed.
Lemma crlf_unlines ls : Forall plain ls -> crlf (unlines ls) = unlines ls.
Proof.
  induction 1 as [|l ls P F IH]; [reflexivity | ]. unfold unlines in *. cbn [map concat]. rewrite <- app_assoc, crlf_app by exact P. cbn [app crlf]. change (Ascii.eqb "010" cr) with false. cbv iota. rewrite IH. reflexivity.
Qed.
Lemma linesOf_line p l : plain l -> forall cur r, linesOf (lineBreak p) cur (l ++ newline :: r) = (rev cur ++ l) :: linesOf (lineBreak p) [] r.
Proof.
  induction l as [|c l IH]; intros P cur r; cbn [app linesOf].
  - replace (lineBreak p newline) with true by (destruct p; reflexivity). rewrite app_nil_r. reflexivity.
  - rewrite (break_weaker p c) by (apply P; left; reflexivity). rewrite IH by (intros d I; apply P; right; exact I). cbn [rev]. rewrite <- app_assoc. reflexivity.
Qed.
Lemma lines_unlines p ls : Forall plain ls -> linesOf (lineBreak p) [] (unlines ls) = ls.
Proof.
  induction 1 as [|l ls P F IH]; [reflexivity | ]. unfold unlines in *. cbn [map concat]. rewrite <- app_assoc. cbn [app]. rewrite (linesOf_line p l P). rewrite IH. reflexivity.
Qed.
Lemma read_unlines p ls : Forall plain ls -> readBlocksForProcs p (unlines ls) = mapM parseLine (filter (fun l => negb (startsHash (strip l))) ls).
Proof. intros P. unfold readBlocksForProcs. rewrite crlf_unlines, lines_unlines by exact P. reflexivity. Qed.
