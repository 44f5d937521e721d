(** Generic analysis of the receive/send/wait/barrier round structure: progress and determinism. *)
From Coq Require Import ZArith List Bool Lia.
From Verif Require Import M_Halo M_Mpi.
Import ListNotations.
Open Scope nat_scope.

Lemma ch_eqb_eq a b : ch_eqb a b = true <-> a = b.
Proof.
  destruct a as [[x y] z], b as [[x' y'] z']. unfold ch_eqb; simpl.
  rewrite !andb_true_iff, !Z.eqb_eq. split; [intros [[-> ->] ->]; auto|intros E; injection E; auto].
Qed.
Lemma ch_eqb_refl a : ch_eqb a a = true.
Proof. now apply ch_eqb_eq. Qed.
Lemma ch_eqb_sym a b : ch_eqb a b = ch_eqb b a.
Proof. destruct (ch_eqb a b) eqn:E, (ch_eqb b a) eqn:E'; auto.
  - apply ch_eqb_eq in E. subst. rewrite ch_eqb_refl in E'. congruence.
  - apply ch_eqb_eq in E'. subst. rewrite ch_eqb_refl in E. congruence. Qed.

Section G.
Context {S M : Type}.
Notation aface := (aface S M).
Notation instr := (instr S M).
Variable ranks : list Z.
Variable F : Z -> list aface.
Variable nv : nat.
Variable loc0 : Z -> S.
Definition src (c : channel) : Z := fst (fst c).
Definition dst (c : channel) : Z := snd (fst c).
Hypothesis Hsend : forall r f, In r ranks -> In f (F r) ->
  src (sch f) = r /\ In (dst (sch f)) ranks /\ exists f', In f' (F (dst (sch f))) /\ rch f' = sch f.
Hypothesis Hrecv : forall r f, In r ranks -> In f (F r) ->
  dst (rch f) = r /\ In (src (rch f)) ranks /\ exists f', In f' (F (src (rch f))) /\ sch f' = rch f.
Hypothesis NDr : forall r, In r ranks -> NoDup (map rch (F r)).
Hypothesis NDs : forall r, In r ranks -> NoDup (map sch (F r)).

Definition prog (r : Z) : list instr := program (F r) nv.

Definition msgAt (v : nat) (ch : channel) (g : Z -> S) : option M :=
  match find (fun f => ch_eqb (sch f) ch) (F (src ch)) with
  | Some f => Some (apay f v (g (src ch)))
  | None => None
  end.
Definition applyW (v : nat) (g : Z -> S) (s : S) (f : aface) : S :=
  match msgAt v (rch f) g with Some m => ahnd f v m s | None => s end.
Fixpoint big (v : nat) : Z -> S :=
  match v with
  | O => loc0
  | Datatypes.S v' => fun r => fold_left (applyW v' (big v')) (F r) (big v' r)
  end.

Definition Rs (l : list aface) : list instr := map (fun f => IRecv (rch f)) l.
Definition Ss (v : nat) (l : list aface) : list instr := map (fun f => ISend (sch f) (apay f v)) l.
Definition Ws (v : nat) (l : list aface) : list instr := map (fun f => IWait (rch f) (ahnd f v)) l.

Lemma program_S (fs : list aface) v : program fs (Datatypes.S v) = program fs v ++ round fs v.
Proof. unfold program. rewrite seq_S, flat_map_app. simpl. now rewrite app_nil_r. Qed.

(** the rank stands at round v, at the given place *)
Inductive place : list aface -> nat -> list instr -> instr -> Prop :=
| pl_recv fs1 f fs2 v : place (fs1 ++ f :: fs2) v (program (fs1 ++ f :: fs2) v ++ Rs fs1) (IRecv (rch f))
| pl_send fs1 f fs2 v : place (fs1 ++ f :: fs2) v
    (program (fs1 ++ f :: fs2) v ++ Rs (fs1 ++ f :: fs2) ++ Ss v fs1) (ISend (sch f) (apay f v))
| pl_wait fs1 f fs2 v : place (fs1 ++ f :: fs2) v
    (program (fs1 ++ f :: fs2) v ++ Rs (fs1 ++ f :: fs2) ++ Ss v (fs1 ++ f :: fs2) ++ Ws v fs1) (IWait (rch f) (ahnd f v))
| pl_arrive fs v : place fs v (program fs v ++ Rs fs ++ Ss v fs ++ Ws v fs) IArrive
| pl_leave fs v : place fs v (program fs v ++ Rs fs ++ Ss v fs ++ Ws v fs ++ [IArrive]) ILeave.

Lemma nth_split_map {A B} (g : A -> B) l n x : nth_error (map g l) n = Some x ->
  exists l1 a l2, l = l1 ++ a :: l2 /\ length l1 = n /\ x = g a.
Proof.
  revert n. induction l as [|a l IH]; intros [|n] H; simpl in H; try discriminate.
  - injection H as <-. exists [], a, l. auto.
  - destruct (IH n H) as (l1 & b & l2 & -> & <- & ->). exists (a :: l1), b, l2. auto.
Qed.
Lemma firstn_map_len {A B} (g : A -> B) l1 l2 : firstn (length l1) (map g (l1 ++ l2)) = map g l1.
Proof. rewrite map_app. rewrite <- (map_length g l1). rewrite firstn_app, Nat.sub_diag, firstn_all. simpl. now rewrite app_nil_r. Qed.

Lemma round_place (fs : list aface) v pre n i : nth_error (round fs v) n = Some i ->
  pre = program fs v ->
  place fs v (pre ++ firstn n (round fs v)) i.
Proof.
  intros H ->. unfold round in *.
  fold (Rs fs) in *. fold (Ss v fs) in *. fold (Ws v fs) in *.
  destruct (Nat.lt_ge_cases n (length (Rs fs))) as [L1|L1].
  - rewrite nth_error_app1 in H by auto. unfold Rs in H. apply nth_split_map in H as (l1 & f & l2 & -> & <- & ->).
    rewrite firstn_app. replace (length l1 - length (Rs (l1 ++ f :: l2))) with 0 by lia.
    simpl. rewrite app_nil_r. unfold Rs at 1. rewrite firstn_map_len. apply pl_recv.
  - rewrite nth_error_app2 in H by auto. rewrite firstn_app. rewrite (firstn_all2 (Rs fs)) by lia.
    remember (n - length (Rs fs)) as n1. clear Heqn1 L1.
    destruct (Nat.lt_ge_cases n1 (length (Ss v fs))) as [L1|L1].
    + rewrite nth_error_app1 in H by auto. unfold Ss in H. apply nth_split_map in H as (l1 & f & l2 & -> & <- & ->).
      rewrite firstn_app. replace (length l1 - length (Ss v (l1 ++ f :: l2))) with 0 by lia.
      simpl. rewrite app_nil_r. unfold Ss at 1. rewrite firstn_map_len. apply pl_send.
    + rewrite nth_error_app2 in H by auto. rewrite firstn_app. rewrite (firstn_all2 (Ss v fs)) by lia.
      remember (n1 - length (Ss v fs)) as n2. clear Heqn2 L1.
      destruct (Nat.lt_ge_cases n2 (length (Ws v fs))) as [L1|L1].
      * rewrite nth_error_app1 in H by auto. unfold Ws in H. apply nth_split_map in H as (l1 & f & l2 & -> & <- & ->).
        rewrite firstn_app. replace (length l1 - length (Ws v (l1 ++ f :: l2))) with 0 by lia.
        simpl. rewrite app_nil_r. unfold Ws at 1. rewrite firstn_map_len. apply pl_wait.
      * rewrite nth_error_app2 in H by auto. rewrite firstn_app. rewrite (firstn_all2 (Ws v fs)) by lia.
        remember (n2 - length (Ws v fs)) as n3. clear Heqn3 L1.
        destruct n3 as [|[|[|]]]; simpl in *; try discriminate; injection H as <-.
        -- rewrite app_nil_r. apply pl_arrive.
        -- apply pl_leave.
Qed.

Lemma prog_place (fs : list aface) : forall m n i, nth_error (program fs m) n = Some i ->
  exists v, v < m /\ place fs v (firstn n (program fs m)) i.
Proof.
  induction m as [|m IH]; intros n i H.
  - destruct n; discriminate.
  - rewrite program_S in *. destruct (Nat.lt_ge_cases n (length (program fs m))) as [L|L].
    + rewrite nth_error_app1 in H by auto. destruct (IH n i H) as [v [Hv P]]. exists v. split; [lia|].
      rewrite firstn_app. replace (n - length (program fs m)) with 0 by lia. simpl. now rewrite app_nil_r.
    + rewrite nth_error_app2 in H by auto. exists m. split; [lia|].
      rewrite firstn_app, (firstn_all2 (program fs m)) by lia. apply round_place; auto.
Qed.

(** counting *)
Lemma count_app p (l1 l2 : list instr) : count p (l1 ++ l2) = count p l1 + count p l2.
Proof. unfold count. now rewrite filter_app, app_length. Qed.
Definition mult (g : aface -> channel) (ch : channel) (l : list aface) : nat :=
  length (filter (fun f => ch_eqb (g f) ch) l).
Lemma count_map0 {A} (p : instr -> bool) (g : A -> instr) l : (forall a, p (g a) = false) -> count p (map g l) = 0.
Proof. intros H. unfold count. induction l; simpl; auto. now rewrite H. Qed.
Lemma count_recv_Rs ch l : count (isRecv ch) (Rs l) = mult rch ch l.
Proof. unfold count, mult, Rs. induction l; simpl; auto. destruct (ch_eqb (rch a) ch); simpl; auto. Qed.
Lemma count_send_Ss ch v l : count (isSend ch) (Ss v l) = mult sch ch l.
Proof. unfold count, mult, Ss. induction l; simpl; auto. destruct (ch_eqb (sch a) ch); simpl; auto. Qed.
Lemma count_wait_Ws ch v l : count (isWait ch) (Ws v l) = mult rch ch l.
Proof. unfold count, mult, Ws. induction l; simpl; auto. destruct (ch_eqb (rch a) ch); simpl; auto. Qed.
Lemma count_recv_S ch v l : count (isRecv ch) (Ss v l) = 0. Proof. now apply count_map0. Qed.
Lemma count_recv_W ch v l : count (isRecv ch) (Ws v l) = 0. Proof. now apply count_map0. Qed.
Lemma count_send_R ch l : count (isSend ch) (Rs l) = 0. Proof. now apply count_map0. Qed.
Lemma count_send_W ch v l : count (isSend ch) (Ws v l) = 0. Proof. now apply count_map0. Qed.
Lemma count_wait_R ch l : count (isWait ch) (Rs l) = 0. Proof. now apply count_map0. Qed.
Lemma count_wait_S ch v l : count (isWait ch) (Ss v l) = 0. Proof. now apply count_map0. Qed.
Lemma count_arr_R l : count isArrive (Rs l) = 0. Proof. now apply count_map0. Qed.
Lemma count_arr_S v l : count isArrive (Ss v l) = 0. Proof. now apply count_map0. Qed.
Lemma count_arr_W v l : count isArrive (Ws v l) = 0. Proof. now apply count_map0. Qed.
Lemma count_lv_R l : count isLeave (Rs l) = 0. Proof. now apply count_map0. Qed.
Lemma count_lv_S v l : count isLeave (Ss v l) = 0. Proof. now apply count_map0. Qed.
Lemma count_lv_W v l : count isLeave (Ws v l) = 0. Proof. now apply count_map0. Qed.

Ltac cnt := rewrite ?count_app, ?count_recv_Rs, ?count_send_Ss, ?count_wait_Ws, ?count_recv_S, ?count_recv_W,
  ?count_send_R, ?count_send_W, ?count_wait_R, ?count_wait_S, ?count_arr_R, ?count_arr_S, ?count_arr_W,
  ?count_lv_R, ?count_lv_S, ?count_lv_W.

Lemma round_split (fs : list aface) v : round fs v = Rs fs ++ Ss v fs ++ Ws v fs ++ [IArrive; ILeave].
Proof. reflexivity. Qed.

Lemma prog_counts (fs : list aface) v : forall ch,
  count (isRecv ch) (program fs v) = v * mult rch ch fs /\
  count (isSend ch) (program fs v) = v * mult sch ch fs /\
  count (isWait ch) (program fs v) = v * mult rch ch fs /\
  count isArrive (program fs v) = v /\ count isLeave (program fs v) = v.
Proof.
  intros ch. induction v as [|v (I1 & I2 & I3 & I4 & I5)]; [repeat split|].
  rewrite program_S, round_split. cnt.
  rewrite I1, I2, I3, I4, I5. unfold count; simpl. lia.
Qed.

Lemma pc_recv (fs : list aface) v ch : count (isRecv ch) (program fs v) = v * mult rch ch fs. Proof. apply prog_counts. Qed.
Lemma pc_send (fs : list aface) v ch : count (isSend ch) (program fs v) = v * mult sch ch fs. Proof. apply prog_counts. Qed.
Lemma pc_wait (fs : list aface) v ch : count (isWait ch) (program fs v) = v * mult rch ch fs. Proof. apply prog_counts. Qed.
Lemma pc_arr (fs : list aface) v : count isArrive (program fs v) = v. Proof. apply (prog_counts fs v (0%Z,0%Z,0%Z)). Qed.
Lemma pc_lv (fs : list aface) v : count isLeave (program fs v) = v. Proof. apply (prog_counts fs v (0%Z,0%Z,0%Z)). Qed.
Ltac pcn := cnt; rewrite ?pc_recv, ?pc_send, ?pc_wait, ?pc_arr, ?pc_lv.

Lemma mult_nodup g ch l : NoDup (map g l) -> mult g ch l <= 1.
Proof.
  unfold mult. induction l as [|a l IH]; simpl; intros H; [lia|]. inversion H; subst.
  destruct (ch_eqb (g a) ch) eqn:E; simpl; [|auto].
  assert (Z0: filter (fun f => ch_eqb (g f) ch) l = []); [|rewrite Z0; simpl; lia].
  destruct (filter (fun f => ch_eqb (g f) ch) l) as [|b r] eqn:Ef; auto. exfalso.
  assert (Hb: In b (filter (fun f => ch_eqb (g f) ch) l)) by (rewrite Ef; now left).
  apply filter_In in Hb as [Hb Eb]. apply ch_eqb_eq in E, Eb. apply H2. rewrite E, <- Eb. now apply in_map.
Qed.
Lemma mult_in g f l : In f l -> 1 <= mult g (g f) l.
Proof.
  intros H. unfold mult. assert (Hi: In f (filter (fun x => ch_eqb (g x) (g f)) l)).
  { apply filter_In. split; auto. apply ch_eqb_refl. }
  destruct (filter _ l); [destruct Hi|simpl; lia].
Qed.
Lemma mult_one g f l : NoDup (map g l) -> In f l -> mult g (g f) l = 1.
Proof. intros N H. pose proof (mult_nodup g (g f) l N). pose proof (mult_in g f l H). lia. Qed.
Lemma mult_before g fs1 f fs2 : NoDup (map g (fs1 ++ f :: fs2)) -> mult g (g f) fs1 = 0.
Proof.
  intros N. pose proof (mult_one g f _ N ltac:(apply in_or_app; right; now left)) as H.
  unfold mult in *. rewrite filter_app, app_length in H. simpl in H. rewrite ch_eqb_refl in H. simpl in H. lia.
Qed.

(** ideal memory after executing a prefix *)
Definition ideal (v : nat) (s : S) (i : instr) : S :=
  match i with
  | IWait ch h => match msgAt v ch (big v) with Some m => h m s | None => s end
  | _ => s
  end.
Definition idealRound (r : Z) (v : nat) (pre : list instr) : S := fold_left (ideal v) pre (big v r).
Lemma ideal_R v l s : fold_left (ideal v) (Rs l) s = s.
Proof. unfold Rs. revert s. induction l; simpl; auto. Qed.
Lemma ideal_S v l s : fold_left (ideal v) (Ss v l) s = s.
Proof. unfold Ss. revert s. induction l; simpl; auto. Qed.
Lemma ideal_W v l s : fold_left (ideal v) (Ws v l) s = fold_left (applyW v (big v)) l s.
Proof. unfold Ws. revert s. induction l; simpl; auto. Qed.
Lemma ideal_round r v : idealRound r v (round (F r) v) = big (1 + v) r.
Proof. unfold idealRound. rewrite round_split, !fold_left_app, ideal_R, ideal_S, ideal_W. reflexivity. Qed.

(** position of a rank: number of completed rounds and the executed part of the current one *)
Definition at_ (r : Z) (n v : nat) (pre : list instr) : Prop :=
  firstn n (prog r) = program (F r) v ++ pre /\ exists post, round (F r) v = pre ++ post /\ (v < nv \/ (v = nv /\ pre = [])).

Lemma place_at r v pre i : place (F r) v pre i -> exists q post, pre = program (F r) v ++ q /\ round (F r) v = q ++ i :: post.
Proof.
  intros P. remember (F r) as fs eqn:E. destruct P; clear E.
  - exists (Rs fs1). eexists. split; [reflexivity|]. rewrite round_split. unfold Rs at 1. rewrite map_app. simpl.
    rewrite <- !app_assoc. reflexivity.
  - exists (Rs (fs1 ++ f :: fs2) ++ Ss v fs1). eexists. split; [reflexivity|]. rewrite round_split. rewrite <- !app_assoc. f_equal.
    unfold Ss at 1. rewrite map_app. simpl. rewrite <- !app_assoc. reflexivity.
  - exists (Rs (fs1 ++ f :: fs2) ++ Ss v (fs1 ++ f :: fs2) ++ Ws v fs1). eexists. split; [reflexivity|]. rewrite round_split. rewrite <- !app_assoc. do 2 f_equal.
    unfold Ws at 1. rewrite map_app. simpl. rewrite <- !app_assoc. reflexivity.
  - exists (Rs fs ++ Ss v fs ++ Ws v fs). eexists. split; [reflexivity|]. rewrite round_split. rewrite <- !app_assoc. reflexivity.
  - exists (Rs fs ++ Ss v fs ++ Ws v fs ++ [IArrive]). eexists. split; [reflexivity|]. rewrite round_split. rewrite <- !app_assoc. reflexivity.
Qed.

(** The ideal memory as a function of the number of executed instructions. *)
Inductive mem_ok (r : Z) : nat -> S -> Prop :=
| mo_at n v pre post : v < nv -> firstn n (prog r) = program (F r) v ++ pre -> round (F r) v = pre ++ post ->
    mem_ok r n (idealRound r v pre)
| mo_end n : n = length (prog r) -> mem_ok r n (big nv r).

Definition sentBy (c : config S M) (ch : channel) : nat := count (isSend ch) (firstn (pc c (src ch)) (prog (src ch))).

Record Inv (c : config S M) : Prop := {
  i_pc : forall r, In r ranks -> pc c r <= length (prog r);
  i_mem : forall r, In r ranks -> mem_ok r (pc c r) (loc c r);
  i_net : forall ch, In (src ch) ranks -> length (net c ch) = sentBy c ch /\
     forall k m, nth_error (net c ch) k = Some m -> msgAt k ch (big k) = Some m;
  i_bar : forall r r', In r ranks -> In r' ranks ->
     count isLeave (firstn (pc c r) (prog r)) <= count isArrive (firstn (pc c r') (prog r')) }.

Lemma mem_ok_place r n s v i : mem_ok r n s -> nth_error (prog r) n = Some i -> place (F r) v (firstn n (prog r)) i ->
  exists pre post, firstn n (prog r) = program (F r) v ++ pre /\ round (F r) v = pre ++ i :: post /\ s = idealRound r v pre.
Proof.
  intros Hm Hn P. destruct (place_at _ _ _ _ P) as (q & post & E1 & E2).
  destruct Hm as [n v' pre post' Hv E3 E4|n ->].
  - (* same round: compare counts of leaves *)
    assert (Hq: count isLeave q = 0).
    { clear -E2. 
      assert (H: count isLeave (round (F r) v) = 1) by (rewrite round_split; cnt; reflexivity).
      assert (H2: exists l, round (F r) v = l ++ [ILeave] /\ count isLeave l = 0).
      { exists (Rs (F r) ++ Ss v (F r) ++ Ws v (F r) ++ [IArrive]). split; [rewrite round_split, <- !app_assoc; reflexivity|]. cnt. reflexivity. }
      destruct H2 as [l [E Hl]]. rewrite E in E2.
      assert (exists l', l = q ++ l').
      { clear -E2. revert q E2. induction l as [|a l IH]; intros q E.
        - destruct q as [|b q]; [exists []; auto|]. simpl in E. injection E as _ E. destruct q; discriminate.
        - destruct q as [|b q]; [exists (a :: l); auto|]. simpl in E. injection E as -> E. destruct (IH q E) as [l' ->]. exists l'. auto. }
      destruct H0 as [l' ->]. rewrite count_app in Hl. lia. }
    assert (C1: count isLeave (firstn n (prog r)) = v).
    { rewrite E1, count_app. destruct (prog_counts (F r) v (0%Z,0%Z,0%Z)) as (_ & _ & _ & _ & ->). lia. }
    assert (C2: v' <= v).
    { rewrite E3, count_app in C1. destruct (prog_counts (F r) v' (0%Z,0%Z,0%Z)) as (_ & _ & _ & _ & H). lia. }
    assert (C3: v <= v' + 1).
    { rewrite E3, count_app in C1. destruct (prog_counts (F r) v' (0%Z,0%Z,0%Z)) as (_ & _ & _ & _ & H).
      assert (count isLeave pre <= count isLeave (round (F r) v')) by (rewrite E4, count_app; lia).
      assert (count isLeave (round (F r) v') = 1) by (rewrite round_split; cnt; reflexivity). lia. }
    destruct (Nat.eq_dec v v') as [->|N].
    + exists q, post. repeat split; auto. rewrite E3 in E1. apply app_inv_head in E1. now subst.
    + assert (Hc: count isLeave pre = 1).
      { rewrite E3, count_app in C1. destruct (prog_counts (F r) v' (0%Z,0%Z,0%Z)) as (_ & _ & _ & _ & H). lia. }
      assert (v = 1 + v') by lia. clear C1. subst v.
      (* pre must be the whole round *)
      assert (Epost: post' = []).
      { clear -E4 Hc. assert (H2: exists l, round (F r) v' = l ++ [ILeave] /\ count isLeave l = 0).
        { exists (Rs (F r) ++ Ss v' (F r) ++ Ws v' (F r) ++ [IArrive]). split; [rewrite round_split, <- !app_assoc; reflexivity|]. cnt. reflexivity. }
        destruct H2 as [l [E Hl]]. rewrite E in E4. clear E.
        revert pre E4 Hc. induction l as [|a l IH]; intros pre E Hc.
        - destruct pre as [|b pre]; [discriminate|]. simpl in E. injection E as _ E. destruct pre; [auto|discriminate].
        - destruct pre as [|b pre]; [discriminate|]. simpl in E. injection E as -> E.
          unfold count in *. simpl in *. destruct (isLeave b); simpl in *; try lia. apply (IH Hl pre); auto. }
      subst post'. rewrite app_nil_r in E4. subst pre.
      exists q, post. repeat split; auto.
      rewrite E3 in E1. change (program (F r) (1 + v')) with (program (F r) (Datatypes.S v')) in E1. rewrite program_S, <- app_assoc in E1.
      apply app_inv_head in E1. assert (q = []). { destruct q; auto. apply (f_equal (@length _)) in E1. rewrite app_length in E1. simpl in E1. lia. }
      subst q. rewrite ideal_round. reflexivity.
  - exfalso. assert (nth_error (prog r) (length (prog r)) = None) by (apply nth_error_None; lia). congruence.
Qed.

Lemma firstn_S {A} (l : list A) n x : nth_error l n = Some x -> firstn (1 + n) l = firstn n l ++ [x].
Proof. revert n. induction l as [|a l IH]; intros [|n] H; simpl in *; try discriminate; [congruence|]. f_equal. now apply IH. Qed.

Lemma mem_ok_step r n s v i s' : mem_ok r n s -> nth_error (prog r) n = Some i -> place (F r) v (firstn n (prog r)) i -> v < nv ->
  s' = ideal v s i -> mem_ok r (1 + n) s'.
Proof.
  intros Hm Hn P Hv ->. destruct (mem_ok_place _ _ _ _ _ Hm Hn P) as (pre & post & E1 & E2 & ->).
  change (mem_ok r (1 + n) (fold_left (ideal v) [i] (idealRound r v pre))).
  unfold idealRound. rewrite <- fold_left_app. fold (idealRound r v (pre ++ [i])).
  apply mo_at with post; auto.
  - rewrite (firstn_S _ _ _ Hn), E1, <- app_assoc. reflexivity.
  - rewrite <- app_assoc. exact E2.
Qed.

Lemma upd_same {A} (f : Z -> A) r v : upd f r v r = v.
Proof. unfold upd. now rewrite Z.eqb_refl. Qed.
Lemma upd_other {A} (f : Z -> A) r v x : x <> r -> upd f r v x = f x.
Proof. unfold upd. intros. destruct (Z.eqb_spec x r); congruence. Qed.
Lemma updc_same {A} (f : channel -> A) c v : updc f c v c = v.
Proof. unfold updc. now rewrite ch_eqb_refl. Qed.
Lemma updc_other {A} (f : channel -> A) c v x : x <> c -> updc f c v x = f x.
Proof. unfold updc. intros. destruct (ch_eqb x c) eqn:E; auto. apply ch_eqb_eq in E. congruence. Qed.

Lemma place_fs fs v pre i : place fs v pre i -> match i with
  | IRecv ch => exists f, In f fs /\ ch = rch f
  | ISend ch pay => exists f, In f fs /\ ch = sch f /\ pay = apay f v /\ exists fs1 fs2, fs = fs1 ++ f :: fs2 /\
        pre = program fs v ++ Rs fs ++ Ss v fs1
  | IWait ch h => exists f, In f fs /\ ch = rch f /\ h = ahnd f v /\ exists fs1 fs2, fs = fs1 ++ f :: fs2 /\
        pre = program fs v ++ Rs fs ++ Ss v fs ++ Ws v fs1
  | _ => True end.
Proof.
  intros [].
  - exists f. split; auto. apply in_or_app; right; now left.
  - exists f. split; [apply in_or_app; right; now left|]. repeat split; eauto.
  - exists f. split; [apply in_or_app; right; now left|]. repeat split; eauto.
  - auto.
  - auto.
Qed.

Lemma place_leave_counts fs v pre : place fs v pre ILeave -> count isArrive pre = v + 1 /\ count isLeave pre = v.
Proof.
  intros P. remember ILeave as i eqn:E. destruct P; try discriminate. cnt.
  destruct (prog_counts fs v (0%Z,0%Z,0%Z)) as (_ & _ & _ & -> & ->). unfold count; simpl. lia.
Qed.

(** effect of one more instruction on the counters *)
Lemma count_step p r n i : nth_error (prog r) n = Some i ->
  count p (firstn (1 + n) (prog r)) = count p (firstn n (prog r)) + (if p i then 1 else 0).
Proof. intros H. rewrite (firstn_S _ _ _ H), count_app. f_equal. unfold count. simpl. destruct (p i); reflexivity. Qed.

Lemma count_upd p (c : config S M) r i x : nth_error (prog r) (pc c r) = Some i ->
  count p (firstn (upd (pc c) r (1 + pc c r) x) (prog x)) = 
  count p (firstn (pc c x) (prog x)) + (if (x =? r)%Z then (if p i then 1 else 0) else 0).
Proof.
  intros H. destruct (Z.eqb_spec x r) as [->|N].
  - rewrite upd_same. now apply count_step.
  - rewrite upd_other by auto. lia.
Qed.

Lemma inv_step sync c c' : Inv c -> step ranks prog sync c c' -> Inv c'.
Proof.
  intros [Ipc Imem Inet Ibar] St.
  assert (PC: forall r i, In r ranks -> nth_error (prog r) (pc c r) = Some i ->
     forall r', In r' ranks -> upd (pc c) r (1 + pc c r) r' <= length (prog r')).
  { intros r i Hr Hn r' Hr'. destruct (Z.eq_dec r' r) as [->|N]; [rewrite upd_same|rewrite upd_other by auto; auto].
    assert (pc c r < length (prog r)) by (apply nth_error_Some; congruence). lia. }
  assert (BAR: forall r i, In r ranks -> nth_error (prog r) (pc c r) = Some i -> isLeave i = false ->
     forall x y, In x ranks -> In y ranks ->
     count isLeave (firstn (upd (pc c) r (1 + pc c r) x) (prog x)) <= count isArrive (firstn (upd (pc c) r (1 + pc c r) y) (prog y))).
  { intros r i Hr Hn Hl x y Hx Hy. rewrite !(count_upd _ _ _ _ _ Hn). rewrite Hl.
    specialize (Ibar x y Hx Hy). destruct (x =? r)%Z; lia. }
  assert (NET: forall r i ch, nth_error (prog r) (pc c r) = Some i -> isSend ch i = false ->
     count (isSend ch) (firstn (upd (pc c) r (1 + pc c r) (src ch)) (prog (src ch))) = sentBy c ch).
  { intros r i ch Hn Hs. rewrite (count_upd _ _ _ _ _ Hn), Hs. unfold sentBy. destruct (src ch =? r)%Z; lia. }
  assert (MEM: forall r i v s', In r ranks -> nth_error (prog r) (pc c r) = Some i -> place (F r) v (firstn (pc c r) (prog r)) i -> v < nv ->
     s' = ideal v (loc c r) i -> forall x, In x ranks -> mem_ok x (upd (pc c) r (1 + pc c r) x) (upd (loc c) r s' x)).
  { intros r i v s' Hr Hn P Hv E x Hx. destruct (Z.eq_dec x r) as [->|N].
    - rewrite !upd_same. eapply mem_ok_step; eauto.
    - rewrite !upd_other by auto. auto. }
  assert (MEM0: forall r i v, In r ranks -> nth_error (prog r) (pc c r) = Some i -> place (F r) v (firstn (pc c r) (prog r)) i -> v < nv ->
     ideal v (loc c r) i = loc c r -> forall x, In x ranks -> mem_ok x (upd (pc c) r (1 + pc c r) x) (loc c x)).
  { intros r i v Hr Hn P Hv E x Hx. pose proof (MEM r i v (loc c r) Hr Hn P Hv (eq_sym E) x Hx) as G.
    destruct (Z.eq_dec x r) as [->|N]; [rewrite !upd_same in *; auto|rewrite !upd_other in * by auto; auto]. }
  destruct St as [c r ch Hr Hn|c r ch pay Hr Hn Hsy|c r ch h m Hr Hn Hm|c r Hr Hn|c r Hr Hn Hall];
   destruct (prog_place _ _ _ _ Hn) as [v [Hv P]]; fold (prog r) in P;
   (constructor; cbn [pc loc net]; [eapply PC; eauto| | |]).
  - eapply MEM0; eauto.
  - intros ch' Hch. destruct (Inet ch' Hch) as [A B]. split; auto. rewrite A. symmetry. eapply NET; eauto.
  - eapply BAR; eauto.
  - eapply MEM0; eauto.
  - intros ch' Hch. destruct (Inet ch' Hch) as [A B].
    pose proof (place_fs _ _ _ _ P) as (f & Hf & -> & -> & fs1 & fs2 & Efs & Epre).
    destruct (Hsend r f Hr Hf) as (Hsrc & _ & _).
    destruct (ch_eqb (sch f) ch') eqn:Ech.
    + apply ch_eqb_eq in Ech. subst ch'. rewrite updc_same, app_length. simpl.
      unfold sentBy in *. cbn [pc]. rewrite Hsrc in *.
      rewrite (count_upd _ _ _ _ _ Hn). simpl. rewrite Z.eqb_refl, ch_eqb_refl.
      split; [lia|].
      intros k m Hk. destruct (Nat.lt_ge_cases k (length (net c (sch f)))) as [L|L].
      * rewrite nth_error_app1 in Hk by auto. auto.
      * rewrite nth_error_app2 in Hk by auto.
        assert (k = length (net c (sch f))).
        { destruct (k - length (net c (sch f))) eqn:Ek; [lia|]. destruct n; discriminate. }
        subst k. rewrite Nat.sub_diag in Hk. simpl in Hk. injection Hk as <-.
        assert (Lv: length (net c (sch f)) = v).
        { rewrite A, Epre. cnt. destruct (prog_counts (F r) v (sch f)) as (_ & -> & _).
          rewrite (mult_one sch f) by (auto; apply NDs; auto).
          assert (NN: NoDup (map sch (fs1 ++ f :: fs2))) by (rewrite <- Efs; apply NDs; auto).
          rewrite (mult_before sch fs1 f fs2 NN). lia. }
        rewrite Lv.
        destruct (mem_ok_place _ _ _ _ _ (Imem r Hr) Hn P) as (pre & post & E1 & E2 & E3).
        assert (pre = Rs (F r) ++ Ss v fs1). { rewrite Epre in E1. apply app_inv_head in E1. auto. }
        subst pre. unfold idealRound in E3. rewrite fold_left_app, ideal_R, ideal_S in E3. rewrite E3.
        unfold msgAt. rewrite Hsrc.
        destruct (find (fun f0 => ch_eqb (sch f0) (sch f)) (F r)) as [f0|] eqn:Ff.
        -- apply find_some in Ff as [Hf0 E0]. apply ch_eqb_eq in E0.
           assert (f0 = f).
           { assert (ND := NDs r Hr). clear -ND Hf0 Hf E0. induction (F r) as [|a l IH]; [destruct Hf|].
             simpl in ND. inversion ND; subst. destruct Hf as [->|Hf], Hf0 as [->|Hf0]; auto.
             - exfalso. apply H1. rewrite <- E0. now apply in_map.
             - exfalso. apply H1. rewrite E0. now apply in_map. }
           subst f0. reflexivity.
        -- exfalso. pose proof (find_none _ _ Ff f Hf) as G. simpl in G. rewrite ch_eqb_refl in G. discriminate.
    + assert (ch' <> sch f) by (intros ->; rewrite ch_eqb_refl in Ech; discriminate).
      rewrite updc_other by auto. split; auto. rewrite A. symmetry. apply (NET r _ ch' Hn). simpl. exact Ech.
  - eapply BAR; eauto.
  - (* wait *)
    pose proof (place_fs _ _ _ _ P) as (f & Hf & -> & -> & fs1 & fs2 & Efs & Epre).
    eapply MEM; eauto. unfold ideal.
    destruct (Hrecv r f Hr Hf) as (Hdst & Hsrc & _).
    destruct (Inet (rch f) Hsrc) as [_ B]. apply B in Hm.
    assert (Lk: count (isWait (rch f)) (firstn (pc c r) (prog r)) = v).
    { rewrite Epre. cnt. destruct (prog_counts (F r) v (rch f)) as (_ & _ & -> & _).
      rewrite (mult_one rch f) by (auto; apply NDr; auto).
      assert (NN: NoDup (map rch (fs1 ++ f :: fs2))) by (rewrite <- Efs; apply NDr; auto).
      rewrite (mult_before rch fs1 f fs2 NN). lia. }
    rewrite Lk in Hm. rewrite Hm. reflexivity.
  - intros ch' Hch. destruct (Inet ch' Hch) as [A B]. split; auto. rewrite A. symmetry. eapply NET; eauto.
  - eapply BAR; eauto.
  - eapply MEM0; eauto.
  - intros ch' Hch. destruct (Inet ch' Hch) as [A B]. split; auto. rewrite A. symmetry. eapply NET; eauto.
  - eapply BAR; eauto.
  - eapply MEM0; eauto.
  - intros ch' Hch. destruct (Inet ch' Hch) as [A B]. split; auto. rewrite A. symmetry. eapply NET; eauto.
  - intros x y Hx Hy. rewrite !(count_upd _ _ _ _ _ Hn). cbn [isLeave isArrive].
    destruct (Z.eqb_spec x r) as [->|N].
    + assert (Cl: count isLeave (firstn (pc c r) (prog r)) + 1 <= count isArrive (firstn (pc c r) (prog r))).
      { destruct (place_leave_counts _ _ _ P) as [-> ->]. lia. }
      specialize (Hall y Hy). destruct (y =? r)%Z; lia.
    + specialize (Ibar x y Hx Hy). destruct (y =? r)%Z; lia.
Qed.

Lemma inv_initial : Inv (initial loc0).
Proof.
  constructor; cbn [pc loc net initial].
  - intros; lia.
  - intros r Hr. assert (H: nv = 0 \/ 0 < nv) by lia. destruct H as [En|En].
    + assert (E: big nv r = loc0 r) by (rewrite En; reflexivity). rewrite <- E. apply mo_end.
      unfold prog. rewrite En. reflexivity.
    + change (loc0 r) with (idealRound r 0 []). apply mo_at with (round (F r) 0); [lia|reflexivity|reflexivity].
  - intros ch _. split; [reflexivity|]. intros k m H. destruct k; discriminate.
  - intros. unfold count. simpl. lia.
Qed.

Lemma inv_steps sync c c' : steps ranks prog sync c c' -> Inv c -> Inv c'.
Proof. intros H; induction H; intros I; [exact I|]. apply (inv_step sync c2 c3); [apply IHsteps; exact I|assumption]. Qed.

(** determinism *)
Lemma leave_last v pre post (fs : list aface) : round fs v = pre ++ post -> count isLeave pre = 1 -> post = [].
Proof.
  intros E4 Hc. assert (H2: exists l, round fs v = l ++ [ILeave] /\ count isLeave l = 0).
  { exists (Rs fs ++ Ss v fs ++ Ws v fs ++ [IArrive]). split; [rewrite round_split, <- !app_assoc; reflexivity|]. cnt. reflexivity. }
  destruct H2 as [l [E Hl]]. rewrite E in E4. clear E.
  revert pre E4 Hc. induction l as [|a l IH]; intros pre E Hc.
  - destruct pre as [|b pre]; [discriminate|]. simpl in E. injection E as _ E. destruct pre; [auto|discriminate].
  - destruct pre as [|b pre]; [discriminate|]. simpl in E. injection E as -> E.
    unfold count in *. simpl in *. destruct (isLeave b); simpl in *; try lia. apply (IH Hl pre); auto.
Qed.

Lemma finished_mem c : Inv c -> finished ranks prog c -> forall r, In r ranks -> loc c r = big nv r.
Proof.
  intros I Fi r Hr. pose proof (i_mem _ I r Hr) as Hm. rewrite (Fi r Hr) in Hm.
  remember (length (prog r)) as n eqn:En. destruct Hm as [n v pre post Hv E1 E2|n _]; [|reflexivity].
  subst n. rewrite firstn_all in E1.
  assert (C: count isLeave (prog r) = nv). { unfold prog. now destruct (prog_counts (F r) nv (0%Z,0%Z,0%Z)) as (_ & _ & _ & _ & ->). }
  rewrite E1, count_app in C. destruct (prog_counts (F r) v (0%Z,0%Z,0%Z)) as (_ & _ & _ & _ & H). rewrite H in C.
  assert (count isLeave pre <= 1).
  { assert (count isLeave (round (F r) v) = 1) by (rewrite round_split; cnt; reflexivity). rewrite E2, count_app in H0. lia. }
  assert (post = []) by (eapply leave_last; eauto; lia). subst post. rewrite app_nil_r in E2. subst pre.
  rewrite ideal_round. f_equal. lia.
Qed.

(** progress *)
Definition phase (i : option instr) : nat :=
  match i with Some (IRecv _) => 0 | Some (ISend _ _) => 1 | Some (IWait _ _) => 2 | Some IArrive => 3 | Some ILeave => 4 | None => 0 end.
Definition lev (c : config S M) (r : Z) : nat :=
  5 * count isLeave (firstn (pc c r) (prog r)) + phase (nth_error (prog r) (pc c r)).

Lemma place_lev fs v pre i : place fs v pre i -> count isLeave pre = v.
Proof. intros []; pcn; unfold count; simpl; lia. Qed.

Lemma lev_counts c r v : Inv c -> In r ranks ->
  (5 * v + 1 <= lev c r -> forall ch, (v + 1) * mult rch ch (F r) <= count (isRecv ch) (firstn (pc c r) (prog r))) /\
  (5 * v + 2 <= lev c r -> forall ch, (v + 1) * mult sch ch (F r) <= count (isSend ch) (firstn (pc c r) (prog r))) /\
  (5 * v + 4 <= lev c r -> v + 1 <= count isArrive (firstn (pc c r) (prog r))).
Proof.
  intros I Hr. unfold lev. destruct (nth_error (prog r) (pc c r)) as [i|] eqn:E.
  - destruct (prog_place _ _ _ _ E) as [w [Hw P]]. fold (prog r) in P. rewrite (place_lev _ _ _ _ P).
    remember (firstn (pc c r) (prog r)) as pre. clear Heqpre E Hw I. remember (F r) as fs. clear Heqfs Hr.
    split; [|split]; intros H.
    + intros ch. destruct P; pcn; simpl phase in H; nia.
    + intros ch. destruct P; pcn; simpl phase in H; nia.
    + destruct P; pcn; simpl phase in H; unfold count; simpl; lia.
  - apply nth_error_None in E. rewrite firstn_all2 by auto. unfold prog. simpl phase.
    repeat split; intros H; [intros ch|intros ch|]; pcn; rewrite pc_lv in H; nia.
Qed.

Lemma min_rank (g : Z -> nat) (l : list Z) : l <> [] -> exists r, In r l /\ forall x, In x l -> g r <= g x.
Proof.
  induction l as [|a l IH]; [congruence|]. intros _. destruct l as [|b l].
  - exists a. split; [now left|]. intros x [->|[]]. lia.
  - destruct IH as [r [Hr H]]; [congruence|]. destruct (Nat.le_gt_cases (g a) (g r)).
    + exists a. split; [now left|]. intros x [->|Hx]; [lia|]. specialize (H x Hx). lia.
    + exists r. split; [now right|]. intros x [->|Hx]; [lia|]. auto.
Qed.

Lemma progress c : Inv c -> ~ finished ranks prog c -> exists c', step ranks prog true c c'.
Proof.
  intros I NF. destruct (list_eq_dec Z.eq_dec ranks []) as [Er|Er].
  { exfalso. apply NF. intros r Hr. rewrite Er in Hr. destruct Hr. }
  destruct (min_rank (lev c) ranks Er) as [r [Hr Hmin]].
  destruct (nth_error (prog r) (pc c r)) as [i|] eqn:E.
  - destruct (prog_place _ _ _ _ E) as [v [Hv P]]. fold (prog r) in P.
    pose proof (place_lev _ _ _ _ P) as Lr. pose proof (place_fs _ _ _ _ P) as Pf.
    assert (Lv: lev c r = 5 * v + phase (Some i)) by (unfold lev; rewrite Lr, E; reflexivity).
    destruct i as [ch|ch pay|ch h| |].
    + eexists. eapply s_recv; eauto.
    + destruct Pf as (f & Hf & -> & -> & fs1 & fs2 & Efs & Epre).
      destruct (Hsend r f Hr Hf) as (Hsrc & Hd & f' & Hf' & Ef').
      eexists. apply (s_send ranks prog true c r (sch f) (apay f v) Hr E). intros _.
      assert (Hs : In (src (sch f)) ranks) by (rewrite Hsrc; auto).
      destruct (i_net _ I (sch f) Hs) as [A _]. rewrite A. unfold sentBy. rewrite Hsrc, Epre. cnt.
      destruct (prog_counts (F r) v (sch f)) as (_ & -> & _).
      rewrite (mult_one sch f) by (auto; apply NDs; auto).
      assert (NN: NoDup (map sch (fs1 ++ f :: fs2))) by (rewrite <- Efs; apply NDs; auto).
      rewrite (mult_before sch fs1 f fs2 NN).
      fold (dst (sch f)).
      destruct (lev_counts c (dst (sch f)) v I Hd) as [H _]. specialize (Hmin _ Hd). rewrite Lv in Hmin. simpl in Hmin.
      specialize (H ltac:(lia) (sch f)).
      assert (1 <= mult rch (sch f) (F (dst (sch f)))) by (rewrite <- Ef'; rewrite Ef'; rewrite <- Ef' at 1; apply mult_in; auto).
      nia.
    + destruct Pf as (f & Hf & -> & -> & fs1 & fs2 & Efs & Epre).
      destruct (Hrecv r f Hr Hf) as (Hdst & Hsrc & f' & Hf' & Ef').
      assert (Lk: count (isWait (rch f)) (firstn (pc c r) (prog r)) = v).
      { rewrite Epre. cnt. destruct (prog_counts (F r) v (rch f)) as (_ & _ & -> & _).
        rewrite (mult_one rch f) by (auto; apply NDr; auto).
        assert (NN: NoDup (map rch (fs1 ++ f :: fs2))) by (rewrite <- Efs; apply NDr; auto).
        rewrite (mult_before rch fs1 f fs2 NN). lia. }
      destruct (i_net _ I (rch f) Hsrc) as [A _].
      destruct (lev_counts c (src (rch f)) v I Hsrc) as [_ [H _]]. specialize (Hmin _ Hsrc). rewrite Lv in Hmin. simpl in Hmin.
      specialize (H ltac:(lia) (rch f)).
      assert (1 <= mult sch (rch f) (F (src (rch f)))) by (rewrite <- Ef' at 1; apply mult_in; auto).
      fold (sentBy c (rch f)) in H. rewrite <- A in H.
      destruct (nth_error (net c (rch f)) v) as [m|] eqn:Em; [|apply nth_error_None in Em; nia].
      eexists. apply (s_wait ranks prog true c r (rch f) (ahnd f v) m Hr E). rewrite Lk. exact Em.
    + eexists. eapply s_arrive; eauto.
    + eexists. eapply s_leave; eauto. intros r' Hr'. destruct (place_leave_counts _ _ _ P) as [-> _].
      destruct (lev_counts c r' v I Hr') as [_ [_ H]]. apply H. specialize (Hmin _ Hr'). rewrite Lv in Hmin. simpl in Hmin. lia.
  - exfalso. apply NF. intros x Hx. pose proof (i_pc _ I x Hx). apply nth_error_None in E.
    destruct (Nat.eq_dec (pc c x) (length (prog x))) as [|N]; auto. exfalso.
    assert (pc c x < length (prog x)) by lia.
    destruct (nth_error (prog x) (pc c x)) as [i|] eqn:Ex; [|apply nth_error_None in Ex; lia].
    destruct (prog_place _ _ _ _ Ex) as [v [Hv P]]. fold (prog x) in P. pose proof (place_lev _ _ _ _ P) as Lx.
    assert (lev c x < 5 * nv). { unfold lev. rewrite Lx, Ex. destruct i; simpl phase; lia. }
    assert (lev c r = 5 * nv).
    { unfold lev. rewrite firstn_all2 by auto. apply nth_error_None in E. rewrite E. simpl phase. unfold prog.
      destruct (prog_counts (F r) nv (0%Z,0%Z,0%Z)) as (_ & _ & _ & _ & ->). lia. }
    specialize (Hmin x Hx). lia.
Qed.

(** every execution is finite *)
Definition work (c : config S M) (l : list Z) : nat := fold_right (fun r a => (length (prog r) - pc c r) + a) 0 l.
Lemma step_advance sync c c' : step ranks prog sync c c' -> exists r, In r ranks /\ pc c r < length (prog r) /\
  pc c' = upd (pc c) r (1 + pc c r).
Proof.
  destruct 1; exists r; cbn [pc]; repeat split; auto; apply nth_error_Some; congruence.
Qed.
Lemma work_step sync c c' : step ranks prog sync c c' -> work c' ranks < work c ranks.
Proof.
  intros St. destruct (step_advance _ _ _ St) as (r & Hr & L & E). clear -Hr L E.
  assert (LE: forall l, work c' l <= work c l).
  { induction l as [|a l IH]; simpl; [lia|]. rewrite E. destruct (Z.eq_dec a r) as [->|N]; [rewrite upd_same|rewrite upd_other by auto]; lia. }
  revert Hr. generalize ranks as l. induction l as [|a l IH]; intros H; [destruct H|]. simpl.
  destruct H as [->|H].
  - pose proof (LE l). rewrite E, upd_same. lia.
  - specialize (IH H). rewrite E. destruct (Z.eq_dec a r) as [->|N]; [rewrite upd_same|rewrite upd_other by auto]; lia.
Qed.
End G.
