(** Lemmas for the boundary-layer grid utility *)
From Coq Require Import Reals ZArith List Bool Lia Lra Sorted.
From Verif Require Import M_Halo M_Grid L_Grid2 L_Halo1 M_BlGrid S_BlGrid.
Import ListNotations.
Open Scope R_scope.

Lemma someInj {X} (a b : X) : Some a = Some b -> a = b.
Proof. congruence. Qed.
Lemma natAbove x : exists N, x < INR N.
Proof.
  exists (Z.to_nat (up (Rabs x))). pose proof (archimed (Rabs x)) as [H _]. pose proof (Rle_abs x). pose proof (Rabs_pos x).
  rewrite INR_IZR_INZ, Z2Nat.id; [lra|]. apply le_IZR. lra.
Qed.

(** gr + gr^2 + ... + gr^n *)
Fixpoint gs (gr : R) (n : nat) : R := match n with O => 0 | S m => gs gr m + gr ^ n end.
Lemma gs_closed gr n : gs gr n * (gr - 1) = gr ^ S n - gr.
Proof. induction n as [|n IH]; [simpl; ring|]. change (gs gr (S n)) with (gs gr n + gr ^ S n). rewrite Rmult_plus_distr_r, IH. simpl. ring. Qed.
Lemma pow_ge1 gr n : 1 < gr -> 1 <= gr ^ n.
Proof. intros H. apply pow_R1_Rle. lra. Qed.
Lemma gs_step gr n : 1 < gr -> gs gr n + 1 <= gs gr (S n).
Proof. intros H. change (gs gr (S n)) with (gs gr n + gr ^ S n). pose proof (pow_ge1 gr (S n) H). lra. Qed.
Lemma gs_lt gr i j : 1 < gr -> (i < j)%nat -> gs gr i < gs gr j.
Proof. intros H. induction 1 as [|j Hj IH]; [pose proof (gs_step gr i H); lra|]. pose proof (gs_step gr j H). lra. Qed.
Lemma gs_le gr i j : 1 < gr -> (i <= j)%nat -> gs gr i <= gs gr j.
Proof. intros H Hij. destruct (Nat.eq_dec i j) as [->|]; [lra|]. left. apply gs_lt; [exact H|lia]. Qed.
Lemma gs_ge gr n : 1 < gr -> INR n <= gs gr n.
Proof. intros H. induction n as [|n IH]; [simpl; lra|]. rewrite S_INR. pose proof (gs_step gr n H). lra. Qed.

Definition stack (f : nat -> R) (n : nat) : list R := rev (map f (seq 0 (S n))).
Lemma stack_S f n : stack f (S n) = f (S n) :: stack f n.
Proof. unfold stack. rewrite (seq_S (S n)), map_app, rev_app_distr. reflexivity. Qed.
Lemma stack_cons f n : exists l, stack f n = f n :: l.
Proof. destruct n; [exists []; reflexivity|]. exists (stack f n). apply stack_S. Qed.
Lemma rev_stack f n : rev (stack f n) = map f (seq 0 (S n)).
Proof. unfold stack. apply rev_involutive. Qed.

Section Loop.
Variables start d gr : R.
Hypothesis Hgr : 1 < gr.
Definition U (i : nat) : R := start + d * gs gr i.
Lemma U_S n : U n + d * gr ^ S n = U (S n).
Proof. unfold U. change (gs gr (S n)) with (gs gr n + gr ^ S n). ring. Qed.

Lemma growLoop_spec stop : forall fuel n l, growLoop fuel stop gr (stack U n) (d * gr ^ S n) = Some l ->
  exists m, (n <= m)%nat /\ l = stack U m /\ stop <= U m /\ (m = n \/ U (m - 1) < stop).
Proof.
  induction fuel as [|f IH]; intros n l H; [discriminate|]. cbn [growLoop] in H. destruct (stack_cons U n) as [r E]. rewrite E in H.
  destruct (Rlt_dec (U n) stop) as [Hlt|Hge].
  - rewrite U_S, <- E, <- stack_S in H. replace (d * gr ^ S n * gr) with (d * gr ^ S (S n)) in H by (simpl; ring).
    destruct (IH _ _ H) as (m & Hm & -> & Hs & Hp). exists m. split; [lia|]. split; [reflexivity|]. split; [exact Hs|]. right.
    destruct Hp as [->|Hp]; [|exact Hp]. replace (S n - 1)%nat with n by lia. exact Hlt.
  - rewrite <- E in H. injection H as <-. exists n. split; [lia|]. split; [reflexivity|]. split; [lra|]. now left.
Qed.
Lemma growLoop_run stop M : 0 < d -> stop <= U M -> forall k n, (n + k = M)%nat -> (forall i, (n <= i < M)%nat -> U i < stop) -> forall fuel, (k < fuel)%nat ->
  growLoop fuel stop gr (stack U n) (d * gr ^ S n) = Some (stack U M).
Proof.
  intros Hd HM. induction k as [|k IH]; intros n Hn Hlt fuel Hf; (destruct fuel as [|f]; [lia|]); cbn [growLoop]; destruct (stack_cons U n) as [r E]; rewrite E.
  - replace n with M in * by lia. destruct (Rlt_dec (U M) stop); [lra|]. now rewrite <- E.
  - destruct (Rlt_dec (U n) stop) as [_|C]; [|elim C; apply Hlt; lia]. rewrite U_S, <- E, <- stack_S.
    replace (d * gr ^ S n * gr) with (d * gr ^ S (S n)) by (simpl; ring). apply IH; [lia| |lia]. intros i Hi. apply Hlt. lia.
Qed.
(** the first index at which the points have reached [stop] *)
Lemma reach stop : 0 < d -> exists M, stop <= U M /\ forall i, (i < M)%nat -> U i < stop.
Proof.
  intros Hd. destruct (natAbove ((stop - start) / d)) as [N HN].
  assert (HU : stop <= U N). { unfold U. pose proof (gs_ge gr N Hgr). assert (stop - start < d * INR N). { apply Rmult_lt_reg_r with (/ d); [now apply Rinv_0_lt_compat|]. replace (d * INR N * / d) with (INR N) by (field; lra). exact HN. }
    assert (d * INR N <= d * gs gr N) by (apply Rmult_le_compat_l; lra). lra. }
  clear HN. induction N as [|N IH].
  - exists 0%nat. split; [exact HU|]. intros i Hi. lia.
  - destruct (Rle_dec stop (U N)) as [H|H]; [exact (IH H)|]. exists (S N). split; [exact HU|]. intros i Hi.
    assert (U i <= U N). { unfold U. assert (gs gr i <= gs gr N) by (apply gs_le; [exact Hgr|lia]). assert (d * gs gr i <= d * gs gr N) by (apply Rmult_le_compat_l; lra). lra. }
    lra.
Qed.

(** the same for the other loop *)
Lemma dyLoop_spec endDy : forall fuel n l, dyLoop fuel endDy gr (stack U n) (d * gr ^ S n) = Some l ->
  exists m, (n <= m)%nat /\ l = stack U m /\ endDy <= d * gr ^ S m /\ forall i, (n < i <= m)%nat -> d * gr ^ i < endDy.
Proof.
  induction fuel as [|f IH]; intros n l H; [discriminate|]. cbn [dyLoop] in H. destruct (stack_cons U n) as [r E]. rewrite E in H.
  destruct (Rlt_dec (d * gr ^ S n) endDy) as [Hlt|Hge].
  - rewrite U_S, <- E, <- stack_S in H. replace (d * gr ^ S n * gr) with (d * gr ^ S (S n)) in H by (simpl; ring).
    destruct (IH _ _ H) as (m & Hm & -> & Hs & Hp). exists m. split; [lia|]. split; [reflexivity|]. split; [exact Hs|]. intros i Hi.
    destruct (Nat.eq_dec i (S n)) as [->|]; [exact Hlt|apply Hp; lia].
  - rewrite <- E in H. injection H as <-. exists n. split; [lia|]. split; [reflexivity|]. split; [lra|]. intros i Hi. lia.
Qed.
Lemma dyLoop_run endDy M : endDy <= d * gr ^ S M -> forall k n, (n + k = M)%nat -> (forall i, (n < i <= M)%nat -> d * gr ^ i < endDy) -> forall fuel, (k < fuel)%nat ->
  dyLoop fuel endDy gr (stack U n) (d * gr ^ S n) = Some (stack U M).
Proof.
  intros HM. induction k as [|k IH]; intros n Hn Hlt fuel Hf; (destruct fuel as [|f]; [lia|]); cbn [dyLoop]; destruct (stack_cons U n) as [r E]; rewrite E.
  - replace n with M in * by lia. destruct (Rlt_dec (d * gr ^ S M) endDy); [lra|]. now rewrite <- E.
  - destruct (Rlt_dec (d * gr ^ S n) endDy) as [_|C]; [|elim C; apply Hlt; lia]. rewrite U_S, <- E, <- stack_S.
    replace (d * gr ^ S n * gr) with (d * gr ^ S (S n)) by (simpl; ring). apply IH; [lia| |lia]. intros i Hi. apply Hlt. lia.
Qed.
Lemma reachDy endDy : 0 < d -> exists M, endDy <= d * gr ^ S M /\ forall i, (0 < i <= M)%nat -> d * gr ^ i < endDy.
Proof.
  intros Hd. assert (G : 1 < Rabs gr) by (rewrite Rabs_right; lra). destruct (Pow_x_infinity gr G (Rabs (endDy / d))) as [N HN].
  assert (HU : endDy <= d * gr ^ S N). { specialize (HN (S N) ltac:(lia)). rewrite (Rabs_right (gr ^ S N)) in HN by (pose proof (pow_ge1 gr (S N) Hgr); lra).
    pose proof (Rle_abs (endDy / d)). apply Rmult_le_reg_r with (/ d); [now apply Rinv_0_lt_compat|]. replace (d * gr ^ S N * / d) with (gr ^ S N) by (field; lra). unfold Rdiv in *. lra. }
  clear HN. induction N as [|N IH].
  - exists 0%nat. split; [exact HU|]. intros i Hi. lia.
  - destruct (Rle_dec endDy (d * gr ^ S N)) as [H|H]; [exact (IH H)|]. exists (S N). split; [exact HU|]. intros i Hi.
    assert (gr ^ i <= gr ^ S N) by (apply Rle_pow; [lra|lia]). assert (d * gr ^ i <= d * gr ^ S N) by (apply Rmult_le_compat_l; lra). lra.
Qed.
End Loop.

(** both while loops end, whatever the (valid) growth rate and step *)
Lemma stack0 f : stack f 0 = [f 0%nat]. Proof. reflexivity. Qed.

Lemma ptsWithGR_spec fuel s e gr d l : ptsWithGR fuel s e gr d = Some l -> 0 < s < e /\ 1 < gr /\
  exists M m, (1 <= M)%nat /\ e <= U s d gr M /\ U s d gr (M - 1) < e /\ (m = M \/ (m = M - 1)%nat) /\ Rabs (U s d gr m - e) <= Rabs (U s d gr M - e) /\ Rabs (U s d gr m - e) <= Rabs (U s d gr (M - 1) - e) /\
    l = map (fun i => s + d * gs gr i / (e - s) * e) (seq 0 (S m)).
Proof.
  intros H. unfold ptsWithGR in H. destruct (Rlt_dec s e) as [H1|]; [|discriminate]. destruct (Rlt_dec 0 s) as [H2|]; [|discriminate].
  destruct (Rlt_dec 1 gr) as [H3|]; [|discriminate]. split; [lra|]. split; [exact H3|].
  destruct (growLoop fuel e gr [s] (d * gr)) as [k|] eqn:E; [|discriminate].
  assert (E' : growLoop fuel e gr (stack (U s d gr) 0) (d * gr ^ 1) = Some k).
  { rewrite <- E. rewrite stack0. f_equal; [f_equal; unfold U; simpl; ring|simpl; ring]. }
  destruct (growLoop_spec s d gr e fuel 0 k E') as (M & _ & -> & HM & Hp).
  destruct M as [|M]. { rewrite stack0 in H. discriminate. }
  rewrite stack_S in H. destruct (stack_cons (U s d gr) M) as [r Er]. rewrite Er in H. replace (S M - 1)%nat with M in * by lia.
  destruct Hp as [Hp|Hp]; [discriminate|]. exists (S M). replace (S M - 1)%nat with M by lia.
  assert (Q : forall m, map (fun p => s + (p - s) / (e - s) * e) (map (U s d gr) (seq 0 (S m))) = map (fun i => s + d * gs gr i / (e - s) * e) (seq 0 (S m))).
  { intros m. rewrite map_map. apply map_ext. intros i. unfold U. f_equal. f_equal. f_equal. ring. }
  destruct (Rlt_dec (Rabs (U s d gr M - e)) (Rabs (U s d gr (S M) - e))) as [Hn|Hn]; apply someInj in H; subst l; rewrite <- Er, ?rev_stack.
  - exists M. split; [lia|]. split; [exact HM|]. split; [exact Hp|]. split; [now right|]. split; [lra|]. split; [lra|]. apply Q.
  - exists (S M). split; [lia|]. split; [exact HM|]. split; [exact Hp|]. split; [now left|]. split; [lra|]. split; [lra|].
    change (U s d gr (S M) :: stack (U s d gr) M) with (U s d gr (S M) :: stack (U s d gr) M). rewrite <- stack_S, rev_stack. apply Q.
Qed.
Lemma ptsWithGR_run fuel s e gr d M : 0 < s < e -> 1 < gr -> 0 < d -> e <= U s d gr (S M) -> (forall i, (i <= M)%nat -> U s d gr i < e) -> (S M < fuel)%nat ->
  exists m, (m = S M \/ m = M) /\ ptsWithGR fuel s e gr d = Some (map (fun i => s + d * gs gr i / (e - s) * e) (seq 0 (S m))) /\
    Rabs (U s d gr m - e) <= Rabs (U s d gr M - e) /\ Rabs (U s d gr m - e) <= Rabs (U s d gr (S M) - e).
Proof.
  intros Hs Hg Hd H1 H2 Hf. pose proof (growLoop_run s d gr e (S M) Hd H1 (S M) 0 eq_refl (fun i Hi => H2 i ltac:(lia)) fuel Hf) as E.
  rewrite stack0 in E. replace (U s d gr 0) with s in E by (unfold U; simpl; ring). replace (d * gr ^ 1) with (d * gr) in E by (simpl; ring).
  unfold ptsWithGR. destruct (Rlt_dec s e) as [_|]; [|lra]. destruct (Rlt_dec 0 s) as [_|]; [|lra]. destruct (Rlt_dec 1 gr) as [_|]; [|lra].
  assert (Q : forall m, map (fun p => s + (p - s) / (e - s) * e) (map (U s d gr) (seq 0 (S m))) = map (fun i => s + d * gs gr i / (e - s) * e) (seq 0 (S m))).
  { intros m. rewrite map_map. apply map_ext. intros i. unfold U. f_equal. f_equal. f_equal. ring. }
  rewrite E, stack_S. destruct (stack_cons (U s d gr) M) as [r Er]. rewrite Er.
  destruct (Rlt_dec (Rabs (U s d gr M - e)) (Rabs (U s d gr (S M) - e))) as [Hn|Hn]; rewrite <- Er.
  - exists M. split; [now right|]. rewrite rev_stack, Q. split; [reflexivity|]. lra.
  - exists (S M). split; [now left|]. rewrite <- stack_S, rev_stack, Q. split; [reflexivity|]. lra.
Qed.
Lemma growToDy_spec fuel d e gr l : growToDy fuel d e gr = Some l -> 0 < d < e /\ 1 < gr /\
  exists m, e <= d * gr ^ S m /\ (forall i, (0 < i <= m)%nat -> d * gr ^ i < e) /\ l = map (fun i => d * gs gr i) (seq 0 (S m)).
Proof.
  intros H. unfold growToDy in H. destruct (Rlt_dec 0 d) as [H1|]; [|discriminate]. destruct (Rlt_dec d e) as [H2|]; [|discriminate].
  destruct (Rlt_dec 1 gr) as [H3|]; [|discriminate]. split; [lra|]. split; [exact H3|].
  destruct (dyLoop fuel e gr [0] (d * gr)) as [k|] eqn:E; [|discriminate]. injection H as <-.
  assert (E' : dyLoop fuel e gr (stack (U 0 d gr) 0) (d * gr ^ 1) = Some k).
  { rewrite <- E. rewrite stack0. f_equal; [f_equal; unfold U; simpl; ring|simpl; ring]. }
  destruct (dyLoop_spec 0 d gr e fuel 0 k E') as (m & _ & -> & Hm & Hp). exists m. split; [exact Hm|]. split; [intros i Hi; apply Hp; lia|].
  rewrite rev_stack. apply map_ext. intros i. unfold U. ring.
Qed.
Lemma growToDy_run fuel d e gr M : 0 < d < e -> 1 < gr -> e <= d * gr ^ S M -> (forall i, (0 < i <= M)%nat -> d * gr ^ i < e) -> (M < fuel)%nat ->
  growToDy fuel d e gr = Some (map (fun i => d * gs gr i) (seq 0 (S M))).
Proof.
  intros Hd Hg H1 H2 Hf. pose proof (dyLoop_run 0 d gr e M H1 M 0 eq_refl (fun i Hi => H2 i ltac:(lia)) fuel Hf) as E.
  rewrite stack0 in E. replace (U 0 d gr 0) with 0 in E by (unfold U; simpl; ring). replace (d * gr ^ 1) with (d * gr) in E by (simpl; ring).
  unfold growToDy. destruct (Rlt_dec 0 d) as [_|]; [|lra]. destruct (Rlt_dec d e) as [_|]; [|lra]. destruct (Rlt_dec 1 gr) as [_|]; [|lra].
  rewrite E, rev_stack. f_equal. apply map_ext. intros i. unfold U. ring.
Qed.

(** sorted lists *)
Lemma sorted_app (l l' : list R) : StronglySorted Rlt l -> StronglySorted Rlt l' -> (forall a b, In a l -> In b l' -> a < b) -> StronglySorted Rlt (l ++ l').
Proof.
  induction l as [|x l IH]; intros H1 H2 H; [exact H2|]. cbn [app]. inversion H1 as [|? ? Hs Hf]; subst. constructor.
  - apply IH; [exact Hs|exact H2|]. intros a b Ha Hb. apply H; [now right|exact Hb].
  - apply Forall_app. split; [exact Hf|]. apply Forall_forall. intros b Hb. apply H; [now left|exact Hb].
Qed.
Lemma sorted_seq (f : nat -> R) n : forall a, (forall i, (a <= i)%nat -> (S i < a + n)%nat -> f i < f (S i)) -> StronglySorted Rlt (map f (seq a n)).
Proof.
  induction n as [|n IH]; intros a H; cbn [seq map]; [constructor|]. constructor; [apply IH; intros i Hi Hj; apply H; lia|].
  apply Forall_forall. intros y Hy. apply in_map_iff in Hy as (i & <- & Hi). apply in_seq in Hi. clear IH. 
  assert (G : forall k, (a + S k < a + S n)%nat -> f a < f (a + S k)%nat).
  { induction k as [|k IHk]; intros Hk; [replace (a + 1)%nat with (S a) by lia; apply H; lia|].
    replace (a + S (S k))%nat with (S (a + S k)) by lia. assert (f a < f (a + S k)%nat) by (apply IHk; lia). assert (f (a + S k)%nat < f (S (a + S k))) by (apply H; lia). lra. }
  replace i with (a + S (i - S a))%nat by lia. apply G. lia.
Qed.
Lemma zrange_seq n : zrange 0 n = map Z.of_nat (seq 0 (Z.to_nat n)).
Proof.
  apply nth_ext with (d := 0%Z) (d' := 0%Z); [rewrite zrange_length, map_length, seq_length; f_equal; lia|].
  intros i Hi. rewrite zrange_length in Hi. rewrite <- (Nat2Z.id i) at 1. rewrite zrange_nth by lia.
  rewrite (nth_indep _ 0%Z (Z.of_nat 0)) by (rewrite map_length, seq_length; lia). rewrite map_nth, seq_nth by lia. lia.
Qed.
Lemma last_map_seq (f : nat -> R) a n d : last (map f (seq a (S n))) d = f (a + n)%nat.
Proof. rewrite seq_S, map_app. cbn [map]. apply last_last. Qed.
Lemma removelast_map_seq (f : nat -> R) a n : removelast (map f (seq a (S n))) = map f (seq a n).
Proof. rewrite seq_S, map_app. cbn [map]. apply removelast_last. Qed.
Lemma lastTwo_map_seq (f : nat -> R) a n : lastTwo (map f (seq a (S (S n)))) = Some (f (a + S n)%nat, f (a + n)%nat).
Proof. unfold lastTwo. rewrite (seq_S (S n)), map_app, rev_app_distr, (seq_S n), map_app, rev_app_distr. reflexivity. Qed.

Lemma pyInt_pos x n : pyInt x = n -> (1 <= n)%Z -> IZR n <= x < IZR n + 1.
Proof.
  unfold pyInt. destruct (Rle_dec 0 x) as [H|H]; intros <- Hn.
  - pose proof (base_Int_part x). lra.
  - pose proof (base_Int_part (- x)). assert (0 <= Int_part (- x))%Z; [|lia]. apply le_IZR. assert (-1 < IZR (Int_part (- x))) by lra.
    apply lt_IZR in H1. apply IZR_le. lia.
Qed.
