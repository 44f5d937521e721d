From Coq Require Import ZArith String Ascii List FinFun Bool Lia.
From Verif Require Import M_Topology S_Topology.
Import ListNotations.
Open Scope Z_scope.

Definition axes := [I; J; K].
Definition saxes : list saxis := [(I,true);(J,true);(K,true);(I,false);(J,false);(K,false)].
Definition mk (x y z : saxis) : orient := fun a => match a with I => x | J => y | K => z end.

Lemma in_saxes s : In s saxes.
Proof. destruct s as [[] []]; simpl; tauto. Qed.

Lemma show_ext o o' : (forall a, o a = o' a) -> show o = show o'.
Proof. intros H. unfold show. now rewrite !H. Qed.

Lemma mk_eta o a : o a = mk (o I) (o J) (o K) a.
Proof. destruct a; reflexivity. Qed.

Definition legalb (x y z : saxis) : bool :=
  negb (axis_eqb (fst x) (fst y)) && negb (axis_eqb (fst x) (fst z)) && negb (axis_eqb (fst y) (fst z)).

Lemma axis_eqb_eq a b : axis_eqb a b = true <-> a = b.
Proof. destruct a, b; simpl; split; congruence. Qed.

Lemma legal_legalb o : legal o -> legalb (o I) (o J) (o K) = true.
Proof.
  intros H. unfold legalb.
  assert (E: forall a b, a <> b -> axis_eqb (fst (o a)) (fst (o b)) = false).
  { intros a b N. destruct (axis_eqb _ _) eqn:E; [|reflexivity].
    apply axis_eqb_eq in E. apply H in E. congruence. }
  rewrite !E by congruence. reflexivity.
Qed.

(** Executable inverse. *)
Definition inv_at (x y z : saxis) (b : axis) : saxis :=
  if axis_eqb (fst x) b then (I, snd x)
  else if axis_eqb (fst y) b then (J, snd y) else (K, snd z).
Definition inv (o : orient) : orient := inv_at (o I) (o J) (o K).

Definition all_orients : list (saxis * saxis * saxis) :=
  flat_map (fun x => flat_map (fun y => flat_map (fun z =>
    if legalb x y z then [(x,y,z)] else []) saxes) saxes) saxes.

Lemma legal_in o : legal o -> In (o I, o J, o K) all_orients.
Proof.
  intros H. apply legal_legalb in H. unfold all_orients.
  apply in_flat_map. exists (o I). split; [apply in_saxes|].
  apply in_flat_map. exists (o J). split; [apply in_saxes|].
  apply in_flat_map. exists (o K). split; [apply in_saxes|].
  rewrite H. now left.
Qed.

Lemma forall_legal (P : orient -> Prop) (Pext : forall o o', (forall a, o a = o' a) -> P o -> P o') :
  (forall t, In t all_orients -> P (mk (fst (fst t)) (snd (fst t)) (snd t))) ->
  forall o, legal o -> P o.
Proof.
  intros H o L. apply legal_in in L. specialize (H _ L). simpl in H.
  eapply Pext; [|exact H]. intros []; reflexivity.
Qed.

Definition opt_str_eqb (a b : option string) : bool :=
  match a, b with Some x, Some y => String.eqb x y | None, None => true | _,_ => false end.
Lemma opt_str_eqb_eq a b : opt_str_eqb a b = true -> a = b.
Proof. destruct a, b; simpl; try congruence. intros H. apply String.eqb_eq in H. congruence. Qed.

Definition chk_no (t : saxis * saxis * saxis) : bool :=
  let '(x,y,z) := t in
  opt_str_eqb (neighborOrientation (show (mk x y z))) (Some (show (inv_at x y z)))
  && legalb (inv_at x y z I) (inv_at x y z J) (inv_at x y z K).

Lemma chk_no_all : forallb chk_no all_orients = true.
Proof. vm_compute. reflexivity. Qed.

Lemma legal_of_legalb o : legalb (o I) (o J) (o K) = true -> legal o.
Proof.
  unfold legalb. intros H a b E.
  rewrite !andb_true_iff, !negb_true_iff in H. destruct H as [[H1 H2] H3].
  assert (Hs: forall c d, axis_eqb c d = axis_eqb d c) by (intros [] []; reflexivity).
  assert (Hr: forall c, axis_eqb c c = true) by (intros []; reflexivity).
  destruct a, b; try reflexivity; exfalso; simpl in *;
  rewrite ?E in *; rewrite ?Hr in *; try discriminate.
Qed.

Lemma inv_inverse o : legal o -> inverse o (inv o).
Proof.
  intros L [a s]. pose proof (legal_legalb _ L) as Hb. unfold legalb in Hb.
  unfold act, inv, inv_at, flip; cbn [fst snd].
  destruct (o I) as [xi si] eqn:EI, (o J) as [xj sj] eqn:EJ, (o K) as [xk sk] eqn:EK; cbn [fst snd] in *.
  destruct a; rewrite ?EI, ?EJ, ?EK;
  destruct xi, xj, xk; simpl in Hb; try discriminate; destruct s, si, sj, sk; simpl; reflexivity.
Qed.

Lemma neighborOrientation_inv o : legal o ->
  neighborOrientation (show o) = Some (show (inv o)) /\ legal (inv o).
Proof.
  intros L. pose proof (legal_in _ L) as Hin.
  pose proof chk_no_all as C. rewrite forallb_forall in C. specialize (C _ Hin).
  unfold chk_no in C. apply andb_true_iff in C as [C1 C2].
  apply opt_str_eqb_eq in C1. split.
  - exact C1.
  - apply legal_of_legalb. exact C2.
Qed.

Lemma act_flip o s : act o (flip s) = flip (act o s).
Proof. destruct s as [a []]; unfold act, flip; simpl; destruct (o a) as [x []]; reflexivity. Qed.

Lemma inverse_unique o o1 o2 : legal o -> inverse o o1 -> inverse o o2 -> forall a, o1 a = o2 a.
Proof.
  intros L H1 H2 a.
  assert (Hs: exists s, act o s = (a, true)).
  { exists (inv o a). pose proof (legal_legalb _ L) as Hb. unfold legalb in Hb.
    unfold act, inv, inv_at, flip.
    destruct (o I) as [xi si] eqn:EI, (o J) as [xj sj] eqn:EJ, (o K) as [xk sk] eqn:EK; cbn [fst snd] in *.
    destruct a, xi, xj, xk; simpl in *; try discriminate; destruct si, sj, sk; simpl; rewrite ?EI, ?EJ, ?EK; reflexivity. }
  destruct Hs as [s Hs]. specialize (H1 s). specialize (H2 s). rewrite Hs in *.
  unfold act in H1, H2; simpl in *. congruence.
Qed.

Lemma inv_inv o : legal o -> forall a, inv (inv o) a = o a.
Proof.
  intros L a. destruct (neighborOrientation_inv o L) as [_ L'].
  assert (H2: inverse (inv o) o).
  { intros [b s]. pose proof (legal_legalb _ L) as Hb. unfold legalb in Hb.
    unfold act, inv, inv_at, flip; cbn [fst snd].
    destruct (o I) as [xi si] eqn:EI, (o J) as [xj sj] eqn:EJ, (o K) as [xk sk] eqn:EK; cbn [fst snd] in *.
    destruct b, xi, xj, xk; simpl in *; try discriminate; destruct s, si, sj, sk; simpl; rewrite ?EI, ?EJ, ?EK; reflexivity. }
  apply (inverse_unique (inv o)); auto. apply inv_inverse; auto.
Qed.

(** neighborNface *)
Definition face_saxis (n : Z) : saxis :=
  match n with 1 => (I,false) | 2 => (I,true) | 3 => (J,false) | 4 => (J,true) | 5 => (K,false) | _ => (K,true) end.
Definition saxis_face (s : saxis) : Z :=
  match s with (I,false) => 1 | (I,true) => 2 | (J,false) => 3 | (J,true) => 4 | (K,false) => 5 | (K,true) => 6 end.
Definition six := [1;2;3;4;5;6].

Definition chk_nf (t : saxis * saxis * saxis) : bool :=
  let '(x,y,z) := t in
  forallb (fun n => match neighborNface n (show (mk x y z)) with
                    | Some m => (m =? saxis_face (flip (act (mk x y z) (face_saxis n))))
                    | None => false end) six.
Lemma chk_nf_all : forallb chk_nf all_orients = true.
Proof. vm_compute. reflexivity. Qed.

Lemma six_range n : 1 <= n <= 6 -> In n six.
Proof. intros. unfold six; simpl; lia. Qed.

Lemma neighborNface_spec o n : legal o -> 1 <= n <= 6 ->
  neighborNface n (show o) = Some (saxis_face (flip (act o (face_saxis n)))).
Proof.
  intros L R. pose proof (legal_in _ L) as Hin.
  pose proof chk_nf_all as C. rewrite forallb_forall in C. specialize (C _ Hin).
  unfold chk_nf in C. rewrite forallb_forall in C. specialize (C _ (six_range _ R)). cbv beta in C.
  change (show (mk (o I) (o J) (o K))) with (show o) in C.
  destruct (neighborNface n (show o)) eqn:E; [|discriminate].
  apply Z.eqb_eq in C. rewrite C. unfold act. now rewrite <- mk_eta.
Qed.

Lemma face_saxis_face s : face_saxis (saxis_face s) = s.
Proof. destruct s as [[] []]; reflexivity. Qed.
Lemma saxis_face_saxis n : 1 <= n <= 6 -> saxis_face (face_saxis n) = n.
Proof. intros H. assert (C: In n six) by (apply six_range; auto). simpl in C. 
  destruct C as [<-|[<-|[<-|[<-|[<-|[<-|[]]]]]]]; reflexivity. Qed.
Lemma saxis_face_range s : 1 <= saxis_face s <= 6.
Proof. destruct s as [[] []]; simpl; lia. Qed.
Lemma outward_face_saxis n s : outward n s <-> 1 <= n <= 6 /\ s = face_saxis n.
Proof.
  split.
  - intros H. assert (C: 1 <= n <= 6).
    { unfold outward in H. destruct n as [|p|p]; try contradiction.
      destruct p as [[[?|?|]|[?|?|]|]|[[?|?|]|[?|?|]|]|]; try contradiction; lia. }
    split; auto. assert (C': In n six) by (apply six_range; auto). simpl in C'.
    destruct C' as [<-|[<-|[<-|[<-|[<-|[<-|[]]]]]]]; simpl in *; auto.
  - intros [C ->]. assert (C': In n six) by (apply six_range; auto). simpl in C'.
    destruct C' as [<-|[<-|[<-|[<-|[<-|[<-|[]]]]]]]; simpl in *; auto.
Qed.

(** Main statements. *)
Lemma c01 : forall o, legal o ->
  exists o', neighborOrientation (show o) = Some (show o') /\ legal o' /\ inverse o o' /\ inverse o' o
             /\ neighborOrientation (show o') = Some (show o).
Proof.
  intros o L. exists (inv o). destruct (neighborOrientation_inv o L) as [E L'].
  destruct (neighborOrientation_inv _ L') as [E' L''].
  assert (S: show (inv (inv o)) = show o) by (apply show_ext; apply inv_inv; auto).
  repeat split; auto.
  - apply inv_inverse; auto.
  - intros s. pose proof (inv_inverse _ L' s) as H. 
    rewrite <- H at 2. unfold act. destruct s as [a b]; simpl.
    destruct (inv o a) as [c d]; simpl. destruct b; simpl; rewrite ?inv_inv; auto.
  - rewrite E', S. reflexivity.
Qed.

(** three-digit strings that are not signed permutations are rejected *)
Definition digits := [0;1;2;3;4;5;6;7;8;9].
Definition isSome {A} (o : option A) := match o with Some _ => true | None => false end.
Definition permb (a b c : Z) : bool :=
  let ok d := (1 <=? d) && (d <=? 6) in
  let ax d := (d - 1) mod 3 in
  ok a && ok b && ok c && negb (ax a =? ax b) && negb (ax a =? ax c) && negb (ax b =? ax c).
Definition chk_rej : bool :=
  forallb (fun a => forallb (fun b => forallb (fun c =>
     Bool.eqb (isSome (neighborOrientation (str3 a b c))) (permb a b c)) digits) digits) digits.
Lemma chk_rej_ok : chk_rej = true.
Proof. vm_compute. reflexivity. Qed.

Definition digit_saxis (d : Z) : saxis :=
  match d with 1 => (I,true) | 2 => (J,true) | 3 => (K,true) | 4 => (I,false) | 5 => (J,false) | _ => (K,false) end.
Lemma digit_in d : 0 <= d <= 9 -> In d digits.
Proof. intros; unfold digits; simpl; lia. Qed.
Lemma digit_saxis_digit d : 1 <= d <= 6 -> saxis_digit (digit_saxis d) = d.
Proof. intros. apply six_range in H. simpl in H. destruct H as [<-|[<-|[<-|[<-|[<-|[<-|[]]]]]]]; reflexivity. Qed.

Lemma c01_reject : forall a b c, 0 <= a <= 9 -> 0 <= b <= 9 -> 0 <= c <= 9 ->
  (neighborOrientation (str3 a b c) <> None <-> exists o, legal o /\ show o = str3 a b c).
Proof.
  intros a b c Ha Hb Hc.
  pose proof chk_rej_ok as C. unfold chk_rej in C.
  rewrite forallb_forall in C. specialize (C _ (digit_in _ Ha)).
  rewrite forallb_forall in C. specialize (C _ (digit_in _ Hb)).
  rewrite forallb_forall in C. specialize (C _ (digit_in _ Hc)).
  apply eqb_prop in C. split.
  - intros N. destruct (neighborOrientation (str3 a b c)); [|congruence]. simpl in C. symmetry in C.
    unfold permb in C. rewrite !andb_true_iff, !negb_true_iff, !Z.leb_le, !Z.eqb_neq in C.
    destruct C as [[[[[A B] D] E1] E2] E3].
    exists (mk (digit_saxis a) (digit_saxis b) (digit_saxis c)). split.
    + apply legal_of_legalb. cbn [mk].
      apply six_range in A, B, D. simpl in A, B, D.
      destruct A as [<-|[<-|[<-|[<-|[<-|[<-|[]]]]]]], B as [<-|[<-|[<-|[<-|[<-|[<-|[]]]]]]],
        D as [<-|[<-|[<-|[<-|[<-|[<-|[]]]]]]]; 
        first [reflexivity | exfalso; first [apply E1; reflexivity | apply E2; reflexivity | apply E3; reflexivity]].
    + unfold show, mk, str3. rewrite !digit_saxis_digit by auto. reflexivity.
  - intros [o [L E]] N. rewrite <- E in N. destruct (neighborOrientation_inv o L) as [E' _].
    congruence.
Qed.

Lemma c02 : forall o n s, legal o -> outward n s ->
  exists m, neighborNface n (show o) = Some m /\ 1 <= m <= 6 /\
    outward m (flip (act o s)) /\
    exists o', neighborOrientation (show o) = Some o' /\ neighborNface m o' = Some n.
Proof.
  intros o n s L H. apply outward_face_saxis in H as [R ->].
  exists (saxis_face (flip (act o (face_saxis n)))).
  split; [apply neighborNface_spec; auto|]. split; [apply saxis_face_range|].
  split. { apply outward_face_saxis. split; [apply saxis_face_range|]. now rewrite face_saxis_face. }
  destruct (neighborOrientation_inv o L) as [E L'].
  exists (show (inv o)). split; auto.
  rewrite neighborNface_spec; auto using saxis_face_range.
  rewrite face_saxis_face, act_flip. f_equal.
  pose proof (inv_inverse o L (face_saxis n)) as Hi. rewrite Hi.
  destruct (face_saxis n) as [a b] eqn:Ef. unfold flip; simpl. rewrite negb_involutive.
  rewrite <- (saxis_face_saxis n R), Ef. reflexivity.
Qed.

(** setters *)
Definition face_ok (f : face) : Prop := 1 <= nface f <= 6 /\ In (bcType f) validBcTypes.

Lemma run_setter_ok f op : face_ok f -> face_ok (run_setter f op).
Proof.
  intros [H1 H2]. destruct op as [s v]. unfold run_setter, face_ok; simpl.
  destruct s; simpl; destruct v; simpl; auto.
  - destruct ((1 <=? z) && (z <=? 6)) eqn:E; simpl; auto.
    rewrite andb_true_iff, !Z.leb_le in E. auto.
  - destruct (String.eqb s "b0" || _)%bool eqn:E; cbn [nface bcType]; auto.
    split; auto. change (existsb (String.eqb s) validBcTypes = true) in E.
    apply existsb_exists in E as [x [Hx Ex]]. apply String.eqb_eq in Ex. now subst.
Qed.

Lemma c03 : forall n f ops, newFace n = Some f ->
  let g := fold_left run_setter ops f in
  (1 <= nface g <= 6) /\ In (bcType g) validBcTypes.
Proof.
  intros n f ops H. unfold newFace in H. destruct ((1 <=? n) && (n <=? 6)) eqn:E; [|discriminate].
  rewrite andb_true_iff, !Z.leb_le in E. injection H as <-.
  assert (Hok: face_ok (mkFace n None "adiabaticNoSlipWall" None None)).
  { split; simpl; auto. tauto. }
  revert Hok. generalize (mkFace n None "adiabaticNoSlipWall" None None).
  induction ops as [|op ops IH]; intros g Hg; simpl; auto.
  apply IH. now apply run_setter_ok.
Qed.

Lemma c03_reject_nface f v : (set_nface f v <> None <-> exists z, v = PInt z /\ 1 <= z <= 6).
Proof.
  destruct v; simpl; split; try congruence; try (intros [z0 [H _]]; discriminate).
  - destruct ((1 <=? z) && (z <=? 6)) eqn:E; intros; try congruence.
    rewrite andb_true_iff, !Z.leb_le in E. eauto.
  - intros [z0 [H R]]. injection H as <-.
    destruct ((1 <=? z) && (z <=? 6)) eqn:E; try congruence.
    apply andb_false_iff in E. rewrite !Z.leb_gt in E. lia.
Qed.

Lemma c03_reject_bcType f v : (set_bcType f v <> None <-> exists s, v = PStr s /\ In s validBcTypes).
Proof.
  assert (HE: forall s, existsb (String.eqb s) validBcTypes = true <-> In s validBcTypes).
  { intros s. rewrite existsb_exists. split.
    - intros [x [Hx E]]. apply String.eqb_eq in E. now subst.
    - intros H. exists s. split; auto. apply String.eqb_refl. }
  destruct v as [|z|s| |]; cbn [set_bcType]; split; try congruence; try (intros [z0 [H _]]; discriminate).
  - destruct (existsb (String.eqb s) validBcTypes) eqn:E; intros; try congruence.
    exists s; split; auto. now apply HE.
  - intros [z0 [H R]]. injection H as <-. apply HE in R. rewrite R. congruence.
Qed.

(** blocks *)
Lemma fold_max_ge mb : forall m, m <= fold_left (fun m b => if m <? nblki b then nblki b else m) mb m
  /\ forall b, In b mb -> nblki b <= fold_left (fun m b => if m <? nblki b then nblki b else m) mb m.
Proof.
  induction mb as [|a mb IH]; intros m; simpl; [split; [lia|tauto]|].
  destruct (IH (if m <? nblki a then nblki a else m)) as [H1 H2].
  destruct (Z.ltb_spec m (nblki a)).
  - split; [lia|]. intros b [<-|Hb]; [lia|auto].
  - split; [lia|]. intros b [<-|Hb]; [lia|auto].
Qed.

Definition is_range (n : nat) (mb : list block) : Prop := blockList mb = map Z.of_nat (seq 0 n).

Definition maxNum (mb : list block) : Z := fold_left (fun m b => if m <? nblki b then nblki b else m) mb 0.

Lemma fold_max_le n : forall l m, (forall b, In b l -> nblki b <= n) -> m <= n ->
  fold_left (fun m b0 => if m <? nblki b0 then nblki b0 else m) l m <= n.
Proof.
  induction l as [|a l IH]; intros m Ha Hm; simpl; auto. apply IH; [intros; apply Ha; now right|].
  destruct (m <? nblki a); auto. apply Ha; now left.
Qed.

Lemma appendBlock_max mb : mb <> [] -> appendBlock mb = Some (mb ++ [newBlock (maxNum mb + 1)]).
Proof. destruct mb; [congruence|reflexivity]. Qed.

Lemma append_range n mb : (0 < n)%nat -> is_range n mb ->
  exists mb', appendBlock mb = Some mb' /\ is_range (S n) mb'.
Proof.
  intros Hn H.
  assert (NE: mb <> []).
  { intros ->. unfold is_range in H. destruct n; simpl in H; [lia|discriminate]. }
  rewrite appendBlock_max by auto. eexists; split; [reflexivity|].
  unfold is_range, blockList. rewrite map_app. fold (blockList mb).
  replace (S n) with (n + 1)%nat by lia. rewrite seq_app, map_app, H. f_equal. simpl.
  f_equal.
  destruct (fold_max_ge mb 0) as [G1 G2]. fold (maxNum mb) in G1, G2.
  assert (Up: maxNum mb <= Z.of_nat n - 1).
  { apply fold_max_le; [|lia]. intros c Hc.
    assert (Hi: In (nblki c) (blockList mb)) by (apply in_map; auto).
    rewrite H in Hi. apply in_map_iff in Hi as [x [<- Hx]]. apply in_seq in Hx. lia. }
  assert (Lo: Z.of_nat n - 1 <= maxNum mb).
  { assert (Hi: In (Z.of_nat (n-1)) (blockList mb)).
    { rewrite H. apply in_map. apply in_seq. lia. }
    apply in_map_iff in Hi as [c [Ec Hc]]. specialize (G2 _ Hc). lia. }
  lia.
Qed.

Lemma c04_append : forall mb, mb <> [] -> NoDup (blockList mb) ->
  exists b, appendBlock mb = Some (mb ++ [b]) /\ NoDup (blockList (mb ++ [b])).
Proof.
  intros mb NE ND. rewrite appendBlock_max by auto. eexists; split; [reflexivity|].
  unfold blockList in *. rewrite map_app. simpl.
  apply (NoDup_Add (a:=maxNum mb + 1) (l:=map nblki mb)).
  - rewrite <- (app_nil_r (map nblki mb)) at 1. apply Add_app.
  - split; auto. intros Hi. apply in_map_iff in Hi as [c [Ec Hc]].
    destruct (fold_max_ge mb 0) as [_ G2]. specialize (G2 _ Hc). fold (maxNum mb) in G2. lia.
Qed.

Lemma newTopology_range n : is_range n (newTopology n).
Proof. unfold is_range, newTopology, blockList. rewrite map_map. reflexivity. Qed.

Lemma appends_range k : forall n mb, (0 < n)%nat -> is_range n mb ->
  exists mb', appends k mb = Some mb' /\ is_range (n + k) mb'.
Proof.
  induction k as [|k IH]; intros n mb Hn H; simpl.
  - exists mb. split; auto. now rewrite Nat.add_0_r.
  - destruct (append_range n mb Hn H) as [mb' [E H']]. rewrite E.
    destruct (IH (S n) mb' ltac:(lia) H') as [mb2 [E2 H2]]. exists mb2. split; auto.
    now replace (n + S k)%nat with (S n + k)%nat by lia.
Qed.

Lemma range_getBlock n mb i : is_range n mb -> 0 <= i < Z.of_nat n ->
  exists b, getBlock mb i = GB_Block b /\ In b mb /\ nblki b = i.
Proof.
  intros H R. unfold getBlock, py_index.
  assert (HL: length mb = n).
  { unfold is_range, blockList in H. apply (f_equal (@length Z)) in H. rewrite !map_length, seq_length in H. auto. }
  rewrite HL. replace ((0 <=? i) && (i <? Z.of_nat n)) with true by lia.
  destruct (nth_error mb (Z.to_nat i)) as [b|] eqn:E.
  - assert (Hb: nblki b = i).
    { apply (map_nth_error nblki) in E. fold (blockList mb) in E. rewrite H in E.
      rewrite (map_nth_error Z.of_nat (Z.to_nat i) (seq 0 n) (d:=Z.to_nat i)) in E.
      - injection E as <-. lia.
      - rewrite (nth_error_nth' _ O) by (rewrite seq_length; lia). rewrite seq_nth by lia. f_equal; lia. }
    rewrite Hb, Z.eqb_refl. exists b. split; auto. split; auto. eapply nth_error_In; eauto.
  - apply nth_error_None in E. lia.
Qed.

Lemma c04 : forall n k, (0 < n)%nat ->
  exists mb, appends k (newTopology n) = Some mb /\
    length mb = (n + k)%nat /\ NoDup (blockList mb) /\
    (forall b, In b mb -> getBlock mb (nblki b) = GB_Block b).
Proof.
  intros n k Hn. destruct (appends_range k n _ Hn (newTopology_range n)) as [mb [E H]].
  exists mb. split; auto.
  assert (HL: length mb = (n+k)%nat).
  { unfold is_range, blockList in H. apply (f_equal (@length Z)) in H. rewrite !map_length, seq_length in H. auto. }
  assert (ND: NoDup (blockList mb)).
  { rewrite H. apply FinFun.Injective_map_NoDup; [intros a b; lia|]. apply seq_NoDup. }
  split; auto. split; auto. intros b Hb.
  assert (R: 0 <= nblki b < Z.of_nat (n+k)).
  { assert (Hi: In (nblki b) (blockList mb)) by (apply in_map; auto).
    rewrite H in Hi. apply in_map_iff in Hi as [x [<- Hx]]. apply in_seq in Hx. lia. }
  destruct (range_getBlock _ _ _ H R) as [b' [E' [Hb' En]]]. rewrite E'. f_equal.
  (* unique *)
  clear -ND Hb Hb' En. unfold blockList in ND.
  induction mb as [|c mb IH]; [destruct Hb|].
  simpl in ND. inversion ND as [|? ? Hni ND']; subst.
  destruct Hb as [->|Hb], Hb' as [->|Hb']; auto.
  - exfalso. apply Hni. rewrite <- En. now apply in_map.
  - exfalso. apply Hni. rewrite En. now apply in_map.
Qed.

(** C05: getBlock on the blocks of one rank *)
Lemma c05_refuted : exists mb n b, NoDup (blockList mb) /\ In b mb /\ nblki b = n /\ getBlock mb n = GB_IndexError.
Proof.
  exists [newBlock 3; newBlock 4], 3, (newBlock 3). repeat split; try (simpl; tauto).
  repeat constructor; simpl; intuition congruence.
Qed.

Lemma c05_partial : forall mb n, NoDup (blockList mb) -> - Z.of_nat (length mb) <= n < Z.of_nat (length mb) ->
  match getBlock mb n with
  | GB_Block b => In b mb /\ nblki b = n
  | GB_None => ~ In n (blockList mb)
  | GB_IndexError => False
  end.
Proof.
  intros mb n ND R. unfold getBlock, py_index.
  assert (HS: exists i, (i < length mb)%nat /\
     (if (0 <=? n) && (n <? Z.of_nat (length mb)) then nth_error mb (Z.to_nat n)
       else if (- Z.of_nat (length mb) <=? n) && (n <? 0) then nth_error mb (Z.to_nat (n + Z.of_nat (length mb)))
       else None) = nth_error mb i).
  { destruct ((0 <=? n) && (n <? Z.of_nat (length mb))) eqn:E1.
    - exists (Z.to_nat n). split; auto. lia.
    - replace ((- Z.of_nat (length mb) <=? n) && (n <? 0)) with true by lia.
      exists (Z.to_nat (n + Z.of_nat (length mb))). split; auto. lia. }
  destruct HS as [i [Hi ->]].
  destruct (nth_error mb i) as [b|] eqn:E; [|apply nth_error_None in E; lia].
  destruct (Z.eqb_spec (nblki b) n) as [Hb|Hb].
  - split; auto. eapply nth_error_In; eauto.
  - destruct (find (fun b0 => nblki b0 =? n) mb) as [c|] eqn:F.
    + apply find_some in F as [Hc Ec]. apply Z.eqb_eq in Ec. auto.
    + intros Hin. apply in_map_iff in Hin as [c [Ec Hc]].
      pose proof (find_none _ _ F c Hc) as G. simpl in G. apply Z.eqb_neq in G. congruence.
Qed.
