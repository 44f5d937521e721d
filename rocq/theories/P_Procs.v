(** C62, C63, C64, C97: the distribution of blocks over processors. *)
From Coq Require Import ZArith NArith String Ascii List Bool Lia Permutation DecimalN.
From Verif Require Import M_Procs S_Procs L_Procs.
Import ListNotations.

(** * C62 *)
Lemma value_acc u : forall p, value (uintText u) (Npos p) = Npos (Pos.of_uint_acc u p).
Proof.
  induction u; intros p; cbn [uintText value Pos.of_uint_acc]; [reflexivity | .. ];
    rewrite <- IHu; apply f_equal; match goal with |- context [nat_of_ascii ?c] => let v := eval compute in (N.of_nat (nat_of_ascii c)) in change (N.of_nat (nat_of_ascii c)) with v end; lia.
Qed.
Lemma value_uint u : value (uintText u) 0 = N.of_uint u.
Proof. induction u; [reflexivity | cbn [uintText value]; exact IHu | .. ]; cbn [uintText value]; exact (value_acc u _). Qed.
(** the numbers the balancer writes are decimal numerals *)
Theorem C62_numerals : forall n, isNumeral (printN n) n.
Proof.
  intros n. split; [apply printN_nonempty | ]. split; [apply printN_digits | ]. unfold printN. rewrite value_uint. apply DecimalN.Unsigned.of_to.
Qed.
Lemma groupLine g : exists l, flat_map (fun n => printN n ++ [","; " "]%char) g ++ [newline] = l ++ [newline] /\ plain l /\ startsHash (strip l) = false /\ parseLine l = Some (map Z.of_N g).
Proof.
  destruct g as [|n g].
  - exists []. split; [reflexivity | ]. split; [intros c [] | ]. split; reflexivity.
  - set (rest := map (fun m => ([], [" "%char], m)) g : list (text * text * N)).
    assert (W1 : whitespace [" "%char]) by (intros c [<- | []]; auto). assert (W0 : whitespace []) by (intros c []).
    assert (P : padsOk rest (Some [])). { split; [ | exact W0]. intros a b m I. unfold rest in I. apply in_map_iff in I. destruct I as (x & E & _). injection E as <- <- <-. auto. }
    assert (E : flat_map (fun n => printN n ++ [","; " "]%char) (n :: g) = numberLine [] n rest (Some []) [" "%char]).
    { unfold numberLine, finalComma. cbn [app]. clear P. subst rest. revert n. induction g as [|m g IH]; intros n.
      - cbn [flat_map map moreItems app]. rewrite app_nil_r, <- app_assoc. reflexivity.
      - cbn [flat_map]. cbn [flat_map] in IH. rewrite IH. cbn [map moreItems flat_map]. unfold moreItems. cbn [app]. rewrite <- !app_assoc. cbn [app]. rewrite <- !app_assoc. reflexivity. }
    exists (numberLine [] n rest (Some []) [" "%char]). rewrite <- E at 1. split; [reflexivity | ].
    destruct (parse_numberLine [] n rest (Some []) [" "%char] W0 W1 P) as [H1 H2]. split; [ | split; [exact H1 | ]].
    + rewrite <- E. intros c I. apply in_flat_map in I. destruct I as (m & _ & I). apply in_app_or in I. destruct I as [I | [<- | [<- | []]]]; [ | reflexivity | reflexivity].
      apply (oneLine_plain (printN m)); [ | exact I]. intros d D. left. assert (X := printN_digits m d D). unfold isDigit in X. lia.
    + rewrite H2. cbn [map]. do 2 f_equal. unfold rest. rewrite map_map. reflexivity.
Qed.
(** what the load balancer writes, both readers read back *)
Theorem C62_round_trip : forall parallel groups, readBlocksForProcs parallel (writeGroups groups) = Some (map (map Z.of_N) groups).
Proof.
  intros p groups. assert (X : exists ls, writeGroups groups = unlines ls /\ Forall plain ls /\ mapM parseLine (filter (fun l => negb (startsHash (strip l))) ls) = Some (map (map Z.of_N) groups)).
  { induction groups as [|g groups (ls & E & F & M)]; [exists []; repeat split; constructor | ]. destruct (groupLine g) as (l & L & P & S & Q). exists (l :: ls). split; [ | split; [constructor; assumption | ]].
    - unfold writeGroups, unlines in *. cbn [flat_map map concat]. rewrite L, E. reflexivity.
    - cbn [filter]. rewrite S. cbn [negb mapM map]. rewrite Q, M. reflexivity. }
  destruct X as (ls & -> & F & M). rewrite read_unlines by exact F. exact M.
Qed.
(** other layouts a user may write: any white space around the numbers and commas, with or without the final comma *)
Theorem C62_layout : forall parallel lines, 
  (forall w1 n rest o w2, In (w1, n, rest, o, w2) lines -> whitespace w1 /\ whitespace w2 /\ padsOk rest o) ->
  readBlocksForProcs parallel (unlines (map (fun '(w1, n, rest, o, w2) => numberLine w1 n rest o w2) lines)) =
  Some (map (fun '(w1, n, rest, o, w2) => Z.of_N n :: map (fun x => Z.of_N (snd x)) rest) lines).
Proof.
  intros p lines H. rewrite read_unlines.
  - induction lines as [|[[[[w1 n] rest] o] w2] lines IH]; [reflexivity | ]. cbn [map filter]. destruct (H w1 n rest o w2 (or_introl eq_refl)) as (A & B & C).
    destruct (parse_numberLine w1 n rest o w2 A B C) as [S Q]. rewrite S. cbn [negb mapM]. rewrite Q, IH by (intros; eapply H; right; eassumption). reflexivity.
  - apply Forall_forall. intros l I. apply in_map_iff in I. destruct I as ([[[[w1 n] rest] o] w2] & <- & I). destruct (H _ _ _ _ _ I) as (A & B & [C D]).
    apply oneLine_plain. intros c J. assert (W : forall w, whitespace w -> In c w -> (32 <= nat_of_ascii c)%nat \/ c = "009"%char) by (intros w Ww Iw; destruct (Ww c Iw) as [-> | ->]; [left; cbn; lia | right; reflexivity]).
    assert (Dg : forall m, In c (printN m) -> (32 <= nat_of_ascii c)%nat \/ c = "009"%char) by (intros m Im; left; assert (X := printN_digits m c Im); unfold isDigit in X; lia).
    assert (Cm : In c [","%char] -> (32 <= nat_of_ascii c)%nat \/ c = "009"%char) by (intros [<- | []]; left; cbn; lia).
    unfold numberLine in J. rewrite !in_app_iff in J. destruct J as [J | [[J | [J | J]] | J]]; eauto.
    + unfold moreItems in J. apply in_flat_map in J. destruct J as ([[a b] m] & Im & J). destruct (C a b m Im) as [Wa Wb]. apply in_app_or in J. destruct J as [J | [J | J]]; eauto.
      * apply Cm. left. exact J.
      * apply in_app_or in J. destruct J; eauto.
    + destruct o as [a|]; [ | destruct J]. cbn [finalComma] in J. apply in_app_or in J. destruct J; eauto.
Qed.
(** comment lines are ignored, wherever they stand *)
Lemma comment_dropped l : commentLine l -> plain l /\ startsHash (strip l) = true.
Proof.
  intros (O & ws & rest & -> & W). split; [apply oneLine_plain; exact O | ]. unfold strip. rewrite (lstrip_id ws) by (apply ws_space; exact W). rewrite (lstrip_solid ("#"%char :: rest)) by reflexivity.
  cbn [rev]. assert (X : forall t, exists u, lstrip (t ++ ["#"%char]) = u ++ ["#"%char]).
  { induction t as [|c t (u & IH)]; [exists []; reflexivity | ]. cbn [app lstrip]. destruct (isSpace c); [exists u; exact IH | exists (c :: t); reflexivity]. }
  destruct (X (rev rest)) as (u & ->). rewrite rev_app_distr. reflexivity.
Qed.
Theorem C62_comments_ignored : forall parallel before comment after, (forall l, In l (before ++ after) -> oneLine l) -> commentLine comment ->
  readBlocksForProcs parallel (unlines (before ++ comment :: after)) = readBlocksForProcs parallel (unlines (before ++ after)).
Proof.
  intros p b l a H C. destruct (comment_dropped l C) as [P S]. assert (F : forall x, In x (b ++ a) -> plain x) by (intros x I; apply oneLine_plain, H; exact I).
  rewrite !read_unlines; [ | apply Forall_forall; exact F | ].
  - rewrite !filter_app. cbn [filter]. rewrite S. reflexivity.
  - apply Forall_forall. intros x I. apply in_app_or in I. destruct I as [I | [<- | I]]; [apply F, in_or_app; auto | exact P | apply F, in_or_app; auto].
Qed.
(** blank lines are not: each stands for a processor without blocks, and no such file can be started *)
Lemma sumMax_nil groups : forall s m, In [] groups -> sumMax groups s m = None.
Proof. induction groups as [|g r IH]; intros s m H; [destruct H | ]. destruct H as [-> | H]; cbn [sumMax]; [reflexivity | ]. destruct (pyMax g); [apply IH; exact H | reflexivity]. Qed.
Theorem C62_blank_lines_refuted : forall before blank after, (forall l, In l (before ++ after) -> oneLine l) -> whitespace blank ->
  (forall parallel g1 g2, readBlocksForProcs parallel (unlines before) = Some g1 -> readBlocksForProcs parallel (unlines after) = Some g2 ->
     readBlocksForProcs parallel (unlines (before ++ blank :: after)) = Some (g1 ++ [] :: g2)) /\
  (forall size total groups, bootstrap (Some (unlines (before ++ blank :: after))) size total <> Accepted groups).
Proof.
  intros b w a H W. assert (Pw : plain w) by (apply oneLine_plain; intros c I; destruct (W c I) as [-> | ->]; [left; cbn; lia | right; reflexivity]).
  assert (Fb : Forall plain b) by (apply Forall_forall; intros x I; apply oneLine_plain, H, in_or_app; auto). assert (Fa : Forall plain a) by (apply Forall_forall; intros x I; apply oneLine_plain, H, in_or_app; auto).
  assert (F : Forall plain (b ++ w :: a)) by (apply Forall_app; split; [exact Fb | constructor; assumption]).
  assert (E : forall p, readBlocksForProcs p (unlines (b ++ w :: a)) = match readBlocksForProcs p (unlines b), readBlocksForProcs p (unlines a) with Some x, Some y => Some (x ++ [] :: y) | _, _ => None end).
  { intros p. rewrite !read_unlines by assumption. rewrite filter_app. cbn [filter]. rewrite (strip_blank w W). cbn [startsHash negb]. rewrite mapM_none. cbn [mapM].
    replace (parseLine w) with (Some (@nil Z)) by (unfold parseLine; rewrite (strip_blank w W); reflexivity). destruct (mapM parseLine _); [ | reflexivity]. destruct (mapM parseLine _); reflexivity. }
  split.
  - intros p g1 g2 E1 E2. rewrite E, E1, E2. reflexivity.
  - intros size total groups. unfold bootstrap. rewrite E. destruct (readBlocksForProcs true (unlines b)) as [x|]; [ | discriminate]. destruct (readBlocksForProcs true (unlines a)) as [y|]; [ | discriminate].
    destruct (negb _); [discriminate | ]. rewrite sumMax_nil by (apply in_or_app; right; left; reflexivity). discriminate.
Qed.
Definition txt := list_ascii_of_string.
Example C62_nonvacuous : readBlocksForProcs true (unlines [txt "# two ranks"; txt " 0,12 ,	3, "; txt "4"]) = Some [[0; 12; 3]; [4]]%Z /\ writeGroups [[10; 2]; [7]]%N = unlines [txt "10, 2, "; txt "7, "] /\
  bootstrap (Some (unlines [txt "0, "; txt ""; txt "1, "])) 2 2 = Aborts.
Proof. repeat split. Qed.
