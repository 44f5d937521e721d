(** C123: the wall-normal points of the boundary-layer and channel grids. *)
From Coq Require Import Reals ZArith List Bool Lia Lra Sorted.
From Verif Require Import M_Halo M_Grid L_Grid2 L_Halo1 M_BlGrid S_BlGrid L_BlGrid.
Import ListNotations.
Open Scope R_scope.

Definition bpt (d gr : R) (i : nat) : R := 5 + d * gs gr i / (30 - 5) * 30.
Definition vpt (n : Z) (i : nat) : R := linspace 0 5 n (Z.of_nat i).

(** the shape of the four layers whenever the utility gets that far *)
Lemma layers_shape fuel b l : layersOf fuel b = Some l ->
  let n := nVSLOf b in let d := 5 / IZR (n - 1) in let B := bpt d (buffGROf b) in
  exists m k nC, (2 < n)%Z /\ 1 < buffGROf b /\ 1 < logGROf b /\ (0 <= nC)%Z /\
    lVSL l = map (vpt n) (seq 0 (Z.to_nat n)) /\ lBuff l = map B (seq 0 (S (S m))) /\
    let s := B (S m) - B m in 0 < s < dYcoreOf b /\ let top := B (S m) + s * gs (logGROf b) k in
    lLog l = map (fun i => B (S m) + s * gs (logGROf b) i) (seq 0 (S k)) /\ (forall i, (0 < i <= k)%nat -> s * logGROf b ^ i < dYcoreOf b) /\ dYcoreOf b <= s * logGROf b ^ S k /\
    nC = pyInt ((endYplus b - top) / dYcoreOf b) /\ lCore l = map (linspace top (endYplus b) nC) (zrange 0 nC).
Proof.
  intros H n d B. unfold layersOf in H. fold n in H. destruct (Z.ltb_spec 2 n) as [Hn|]; [|discriminate].
  destruct (Rlt_dec 1 (buffGROf b)) as [Hg|]; [|discriminate].
  assert (EV : map (linspace 0 5 n) (zrange 0 n) = map (vpt n) (seq 0 (Z.to_nat n))) by (rewrite zrange_seq, map_map; reflexivity).
  rewrite EV in H. replace (Z.to_nat n) with (S (S (Z.to_nat (n - 2)))) in H by lia. rewrite lastTwo_map_seq in H.
  replace (vpt n (0 + S (Z.to_nat (n - 2)))) with 5 in H.
  2:{ unfold vpt. rewrite linspace_uniform by lia. replace (Z.of_nat (0 + S (Z.to_nat (n - 2)))) with (n - 1)%Z by lia. field. apply IZR_neq. lia. }
  replace (vpt n (0 + Z.to_nat (n - 2))) with (5 - d) in H.
  2:{ unfold vpt, d. rewrite linspace_uniform by lia. replace (Z.of_nat (0 + Z.to_nat (n - 2))) with (n - 1 - 1)%Z by lia. rewrite (minus_IZR (n - 1) 1). field. apply IZR_neq. lia. }
  replace (5 - (5 - d)) with d in H by ring.
  destruct (ptsWithGR fuel 5 30 (buffGROf b) d) as [yB|] eqn:EB; [|discriminate].
  destruct (ptsWithGR_spec _ _ _ _ _ _ EB) as (_ & _ & M & m & _ & _ & _ & _ & _ & _ & ->).
  destruct m as [|m]; [discriminate|]. change (map (fun i => 5 + d * gs (buffGROf b) i / (30 - 5) * 30) (seq 0 (S (S m)))) with (map B (seq 0 (S (S m)))) in H.
  rewrite lastTwo_map_seq in H. cbn [Nat.add] in H. set (s := B (S m) - B m) in *.
  destruct (growToDy fuel s (dYcoreOf b) (logGROf b)) as [g|] eqn:EG; [|discriminate].
  destruct (growToDy_spec _ _ _ _ _ EG) as (Hs & Hl & k & Hk1 & Hk2 & ->).
  rewrite map_map in H. rewrite last_map_seq in H. cbn [Nat.add] in H. set (top := B (S m) + s * gs (logGROf b) k) in *.
  set (nC := pyInt ((endYplus b - top) / dYcoreOf b)) in *. destruct (Z.ltb_spec nC 0) as [|HnC]; [discriminate|].
  apply someInj in H. subst l. cbn [lVSL lBuff lLog lCore]. exists m, k, nC. split; [exact Hn|]. split; [exact Hg|]. split; [exact Hl|]. split; [exact HnC|].
  split; [f_equal; f_equal; lia|]. split; [reflexivity|]. cbv zeta. fold s. split; [exact Hs|]. fold top. split; [reflexivity|]. split; [exact Hk2|]. split; [exact Hk1|]. split; reflexivity.
Qed.

(** half of the profile: strictly increasing from 0 to the y+ of the upper end *)
Lemma half_climbs fuel b l : layersOf fuel b = Some l -> (2 <= List.length (lCore l))%nat -> climbs (halfYs l) 0 (endYplus b).
Proof.
  intros H Hc. destruct (layers_shape _ _ _ H) as (m & k & nC & Hn & Hg & Hl & HnC & EV & EB & Hs & EL & Hk1 & Hk2 & EnC & EC).
  set (n := nVSLOf b) in *. set (d := 5 / IZR (n - 1)) in *. set (B := bpt d (buffGROf b)) in *. set (s := B (S m) - B m) in *. set (top := B (S m) + s * gs (logGROf b) k) in *.
  assert (Hd : 0 < d). { unfold d. apply Rdiv_lt_0_compat; [lra|]. apply IZR_lt. lia. }
  assert (HnC2 : (2 <= nC)%Z). { rewrite EC, map_length, zrange_length in Hc. lia. }
  assert (Htop : top < endYplus b). { pose proof (pyInt_pos _ _ (eq_sym EnC) ltac:(lia)) as [P _]. assert (IZR 2 <= IZR nC) by (apply IZR_le; lia).
    assert (0 < (endYplus b - top) / dYcoreOf b) by lra. assert (0 < (endYplus b - top) / dYcoreOf b * dYcoreOf b) by (apply Rmult_lt_0_compat; lra).
    replace ((endYplus b - top) / dYcoreOf b * dYcoreOf b) with (endYplus b - top) in * by (field; lra). lra. }
  assert (HB : forall i j, (i < j)%nat -> B i < B j). { intros i j Hij. unfold B, bpt. pose proof (gs_lt (buffGROf b) i j Hg Hij). assert (d * gs (buffGROf b) i < d * gs (buffGROf b) j) by (apply Rmult_lt_compat_l; lra). lra. }
  assert (HB0 : B 0%nat = 5). { unfold B, bpt. simpl. lra. }
  assert (HL : forall i j, (i < j)%nat -> B (S m) + s * gs (logGROf b) i < B (S m) + s * gs (logGROf b) j). { intros i j Hij. pose proof (gs_lt (logGROf b) i j Hl Hij). assert (s * gs (logGROf b) i < s * gs (logGROf b) j) by (apply Rmult_lt_compat_l; lra). lra. }
  assert (HL0 : B (S m) + s * gs (logGROf b) 0 = B (S m)) by (simpl; ring).
  assert (HV : forall i, (i < Z.to_nat n)%nat -> vpt n i = 5 * INR i / IZR (n - 1)). { intros i Hi. unfold vpt. rewrite linspace_uniform by lia. rewrite INR_IZR_INZ. field. apply IZR_neq. lia. }
  assert (HV5 : forall i, (i < Z.to_nat n)%nat -> vpt n i <= 5). { intros i Hi. rewrite HV by exact Hi. rewrite INR_IZR_INZ. assert (IZR (Z.of_nat i) <= IZR (n - 1)) by (apply IZR_le; lia). assert (0 < IZR (n - 1)) by (apply IZR_lt; lia).
    apply Rmult_le_reg_r with (IZR (n - 1)); [assumption|]. unfold Rdiv. rewrite Rmult_assoc, Rinv_l by lra. lra. }
  assert (ER : removelast (tl (lBuff l)) = map B (seq 1 m)). { rewrite EB. change (tl (map B (seq 0 (S (S m))))) with (map B (seq 1 (S m))). apply removelast_map_seq. }
  assert (ERL : removelast (lLog l) = map (fun i => B (S m) + s * gs (logGROf b) i) (seq 0 k)) by (rewrite EL; apply removelast_map_seq).
  assert (ECs : lCore l = map (fun i => linspace top (endYplus b) nC (Z.of_nat i)) (seq 0 (Z.to_nat nC))) by (rewrite EC, zrange_seq, map_map; reflexivity).
  assert (HC : forall i, (i < Z.to_nat nC)%nat -> linspace top (endYplus b) nC (Z.of_nat i) = top + (endYplus b - top) * INR i / IZR (nC - 1)) by (intros i Hi; rewrite linspace_uniform, INR_IZR_INZ by lia; reflexivity).
  assert (HnC1 : 0 < IZR (nC - 1)) by (apply IZR_lt; lia). assert (Hn1 : 0 < IZR (n - 1)) by (apply IZR_lt; lia).
  split; [|split].
  - unfold halfYs. rewrite ER, ERL, EV, ECs. apply sorted_app; [|apply sorted_app; [|apply sorted_app|]|].
    + apply sorted_seq. intros i _ Hi. rewrite !HV by lia. rewrite S_INR. apply Rmult_lt_compat_r; [now apply Rinv_0_lt_compat|lra].
    + apply sorted_seq. intros i _ _. apply HB. lia.
    + apply sorted_seq. intros i _ _. apply HL. lia.
    + apply sorted_seq. intros i _ Hi. rewrite !HC by lia. rewrite S_INR. assert (0 < (endYplus b - top) * / IZR (nC - 1)) by (apply Rmult_lt_0_compat; [lra|now apply Rinv_0_lt_compat]). unfold Rdiv. lra.
    + intros x y Hx Hy. apply in_map_iff in Hx as (i & <- & Hi). apply in_map_iff in Hy as (j & <- & Hj). apply in_seq in Hi, Hj. rewrite HC by lia.
      assert (B (S m) + s * gs (logGROf b) i < top) by (apply HL; lia).
      assert (0 <= (endYplus b - top) * INR j / IZR (nC - 1)). { apply Rmult_le_pos; [apply Rmult_le_pos; [lra|apply pos_INR]|left; now apply Rinv_0_lt_compat]. } lra.
    + intros x y Hx Hy. apply in_map_iff in Hx as (i & <- & Hi). apply in_seq in Hi. assert (B i < B (S m)) by (apply HB; lia). apply in_app_or in Hy as [Hy|Hy]; apply in_map_iff in Hy as (j & <- & Hj); apply in_seq in Hj.
      * destruct j as [|j]; [lra|]. assert (B (S m) + s * gs (logGROf b) 0 < B (S m) + s * gs (logGROf b) (S j)) by (apply HL; lia). lra.
      * rewrite HC by lia. assert (0 <= (endYplus b - top) * INR j / IZR (nC - 1)). { apply Rmult_le_pos; [apply Rmult_le_pos; [lra|apply pos_INR]|left; now apply Rinv_0_lt_compat]. }
        assert (B (S m) <= top). { unfold top. pose proof (gs_le (logGROf b) 0 k Hl ltac:(lia)). change (gs (logGROf b) 0) with 0 in *. assert (0 <= s * gs (logGROf b) k) by (apply Rmult_le_pos; lra). lra. } lra.
    + intros x y Hx Hy. apply in_map_iff in Hx as (i & <- & Hi). apply in_seq in Hi. pose proof (HV5 i ltac:(lia)). assert (HBm : 5 < B (S m)) by (rewrite <- HB0; apply HB; lia).
      apply in_app_or in Hy as [Hy|Hy]; [|apply in_app_or in Hy as [Hy|Hy]]; apply in_map_iff in Hy as (j & <- & Hj); apply in_seq in Hj.
      * assert (B 0%nat < B j) by (apply HB; lia). lra.
      * pose proof (gs_le (logGROf b) 0 j Hl ltac:(lia)). change (gs (logGROf b) 0) with 0 in *. assert (0 <= s * gs (logGROf b) j) by (apply Rmult_le_pos; lra). lra.
      * rewrite HC by lia. assert (0 <= (endYplus b - top) * INR j / IZR (nC - 1)). { apply Rmult_le_pos; [apply Rmult_le_pos; [lra|apply pos_INR]|left; now apply Rinv_0_lt_compat]. }
        assert (B (S m) <= top). { unfold top. pose proof (gs_le (logGROf b) 0 k Hl ltac:(lia)). change (gs (logGROf b) 0) with 0 in *. assert (0 <= s * gs (logGROf b) k) by (apply Rmult_le_pos; lra). lra. } lra.
  - unfold halfYs. rewrite EV. replace (Z.to_nat n) with (S (Z.to_nat (n - 1))) by lia. cbn [seq map app hd_error]. f_equal. rewrite HV by lia. simpl. lra.
  - unfold halfYs. rewrite !app_assoc. set (A := (lVSL l ++ _) ++ _). rewrite nth_error_app2; rewrite app_length; [|lia].
    replace (List.length A + List.length (lCore l) - 1 - List.length A)%nat with (List.length (lCore l) - 1)%nat by lia.
    rewrite ECs, nth_error_map, map_length, seq_length. rewrite (nth_error_nth' _ 0%nat) by (rewrite seq_length; lia). rewrite seq_nth by lia. cbn [option_map Nat.add].
    f_equal. rewrite HC by lia. rewrite INR_IZR_INZ. replace (Z.of_nat (Z.to_nat nC - 1)) with (nC - 1)%Z by lia. field. lra.
Qed.

(** ** mirroring *)
Lemma nth_tl {X} (l : list X) i : nth_error (tl l) i = nth_error l (S i).
Proof. destruct l; [destruct i; reflexivity|reflexivity]. Qed.
Lemma nth_rev {X} (l : list X) : forall i, (i < List.length l)%nat -> nth_error (rev l) i = nth_error l (List.length l - 1 - i).
Proof.
  intros i Hi. destruct l as [|d l']; [cbn in Hi; lia|]. set (l := d :: l') in *.
  rewrite (nth_error_nth' (rev l) d) by (rewrite rev_length; exact Hi). rewrite (nth_error_nth' l d) by lia. f_equal. rewrite rev_nth by exact Hi. f_equal. lia.
Qed.
Lemma last_nth (l : list R) d : l <> [] -> nth_error l (List.length l - 1) = Some (last l d).
Proof.
  intros H. destruct (exists_last H) as (l' & x & ->). rewrite last_last, app_length. cbn [List.length]. rewrite nth_error_app2 by lia.
  replace (List.length l' + 1 - 1 - List.length l')%nat with 0%nat by lia. reflexivity.
Qed.
Lemma sorted_nth (l : list R) : StronglySorted Rlt l <-> forall i a b, nth_error l i = Some a -> nth_error l (S i) = Some b -> a < b.
Proof.
  split.
  - induction 1 as [|x l Hs IH Hf]; intros i a b Ha Hb; [destruct i; discriminate|]. destruct i as [|i]; cbn [nth_error] in Ha, Hb; [|eapply IH; eassumption].
    injection Ha as <-. apply (proj1 (Forall_forall _ _) Hf). destruct l; [discriminate|]. injection Hb as <-. now left.
  - intros H. induction l as [|x l IH]; [constructor|]. assert (Hs : StronglySorted Rlt l) by (apply IH; intros i; apply (H (S i))). constructor; [exact Hs|].
    destruct l as [|y l]; [constructor|]. assert (x < y) by (apply (H 0%nat); reflexivity). constructor; [assumption|]. inversion Hs as [|? ? _ Hf]; subst.
    eapply Forall_impl; [|exact Hf]. cbn. intros; lra.
Qed.

Definition mirror (l : list R) : list R := l ++ map (fun y => 2 * last l 0 - y) (tl (rev l)).
Lemma mirror_length l : l <> [] -> List.length (mirror l) = (2 * List.length l - 1)%nat.
Proof. intros H. unfold mirror. rewrite app_length, map_length. assert (List.length (tl (rev l)) = List.length l - 1)%nat. { rewrite <- (rev_length l). destruct (rev l); cbn [tl List.length]; lia. } destruct l; [congruence|]. cbn [List.length] in *. lia. Qed.
Lemma mirror_nth l i : l <> [] -> (i < 2 * List.length l - 1)%nat ->
  nth_error (mirror l) i = if (i <? List.length l)%nat then nth_error l i else option_map (fun y => 2 * last l 0 - y) (nth_error l (2 * List.length l - 2 - i)).
Proof.
  intros H Hi. unfold mirror. destruct (Nat.ltb_spec i (List.length l)); [now apply nth_error_app1|]. rewrite nth_error_app2 by assumption.
  rewrite nth_error_map, nth_tl, nth_rev by lia. do 2 f_equal. lia.
Qed.
Lemma mirror_climbs l a b : climbs l a b -> climbs (mirror l) a (2 * b - a).
Proof.
  intros (Hs & Ha & Hb). assert (Hne : l <> []) by (intros ->; discriminate). rewrite (last_nth l 0 Hne) in Hb. injection Hb as Hb.
  pose proof (mirror_length l Hne) as HL. assert (0 < List.length l)%nat by (destruct l; [congruence|cbn; lia]). split; [|split].
  - apply sorted_nth. intros i x y Hx Hy. assert (Hi : (S i < 2 * List.length l - 1)%nat). { rewrite <- HL. apply nth_error_Some. congruence. }
    rewrite mirror_nth in Hx, Hy by (assumption || lia). destruct (Nat.ltb_spec (S i) (List.length l)).
    + destruct (Nat.ltb_spec i (List.length l)); [|lia]. exact (proj1 (sorted_nth l) Hs i x y Hx Hy).
    + destruct (nth_error l (2 * List.length l - 2 - S i)) as [y'|] eqn:Ey; [|discriminate]. injection Hy as <-. destruct (Nat.ltb_spec i (List.length l)).
      * assert (i = List.length l - 1)%nat by lia. subst i. rewrite (last_nth l 0 Hne) in Hx. injection Hx as <-.
        replace (2 * List.length l - 2 - S (List.length l - 1))%nat with (List.length l - 2)%nat in Ey by lia.
        assert (y' < last l 0); [|lra]. apply (proj1 (sorted_nth l) Hs (List.length l - 2)%nat); [exact Ey|]. replace (S (List.length l - 2)) with (List.length l - 1)%nat by lia. apply last_nth, Hne.
      * destruct (nth_error l (2 * List.length l - 2 - i)) as [x'|] eqn:Ex; [|discriminate]. injection Hx as <-. assert (y' < x'); [|lra].
        apply (proj1 (sorted_nth l) Hs (2 * List.length l - 2 - S i)%nat); [exact Ey|]. rewrite <- Ex. f_equal. lia.
  - unfold mirror. destruct l; [congruence|exact Ha].
  - rewrite HL. rewrite mirror_nth by (assumption || lia). destruct (Nat.ltb_spec (2 * List.length l - 1 - 1) (List.length l)).
    + destruct l as [|x [|y l]]; cbn [List.length] in *; try lia. cbn in Ha, Hb |- *. injection Ha as ->. subst. f_equal. ring.
    + replace (2 * List.length l - 2 - (2 * List.length l - 1 - 1))%nat with 0%nat by lia. destruct l; [congruence|]. cbn [hd_error nth_error option_map] in *. injection Ha as ->. f_equal. lra.
Qed.
Lemma mirror_symmetric l b : climbs l 0 b -> symmetricAbout b (mirror l).
Proof.
  intros (Hs & Ha & Hb). assert (Hne : l <> []) by (intros ->; discriminate). rewrite (last_nth l 0 Hne) in Hb. injection Hb as Hb.
  pose proof (mirror_length l Hne) as HL. assert (0 < List.length l)%nat by (destruct l; [congruence|cbn; lia]). intros i x y Hx Hy. rewrite HL in Hy.
  assert (Hi : (i < 2 * List.length l - 1)%nat). { rewrite <- HL. apply nth_error_Some. congruence. }
  rewrite mirror_nth in Hx, Hy by (assumption || lia).
  destruct (Nat.ltb_spec i (List.length l)) as [H1|H1]; destruct (Nat.ltb_spec (2 * List.length l - 1 - 1 - i) (List.length l)) as [H2|H2].
  - assert (i = List.length l - 1)%nat by lia. subst i. replace (2 * List.length l - 1 - 1 - (List.length l - 1))%nat with (List.length l - 1)%nat in Hy by lia. rewrite (last_nth l 0 Hne) in Hx, Hy. injection Hx as <-. injection Hy as <-. lra.
  - replace (2 * List.length l - 2 - (2 * List.length l - 1 - 1 - i))%nat with i in Hy by lia. rewrite Hx in Hy. injection Hy as <-. lra.
  - replace (2 * List.length l - 1 - 1 - i)%nat with (2 * List.length l - 2 - i)%nat in Hy by lia. rewrite Hy in Hx. injection Hx as <-. lra.
  - lia.
Qed.

(** a physical input: positive thickness, viscosity and Reynolds number *)
Definition physicalInput (b : blInput) : Prop := 0 < bDelta b /\ 0 < bVisc b /\ 0 < bReTau b.
Lemma yp1_unit b : physicalInput b -> yp1 b = wallUnit (bDelta b) (bReTau b) /\ 0 < yp1 b.
Proof.
  intros (H1 & H2 & H3). assert (E : yp1 b = bDelta b / bReTau b). { unfold yp1, utau. field. lra. }
  split; [exact E|]. rewrite E. now apply Rdiv_lt_0_compat.
Qed.
Lemma climbs_scale l a b c : 0 < c -> climbs l a b -> climbs (map (fun y => y * c) l) (a * c) (b * c).
Proof.
  intros Hc (Hs & Ha & Hb). split; [|split].
  - apply sorted_nth. intros i x y Hx Hy. rewrite nth_error_map in Hx, Hy. destruct (nth_error l i) eqn:E1; [|discriminate]. destruct (nth_error l (S i)) eqn:E2; [|discriminate].
    injection Hx as <-. injection Hy as <-. apply Rmult_lt_compat_r; [exact Hc|]. exact (proj1 (sorted_nth l) Hs i _ _ E1 E2).
  - destruct l; [discriminate|]. cbn [map hd_error] in *. injection Ha as ->. reflexivity.
  - rewrite map_length, nth_error_map, Hb. reflexivity.
Qed.

(** the written heights climb strictly from the wall; a channel's to twice delta, symmetric about its middle; a boundary layer's to yHeight *)
Theorem C123_heights : forall fuel b l g, physicalInput b -> layersOf fuel b = Some l -> (2 <= List.length (lCore l))%nat -> boundaryLayerGrid fuel b = Some g ->
  match bDomain b with
  | Channel => climbs (gy g) 0 (2 * bDelta b) /\ symmetricAbout (bDelta b) (gy g)
  | Bl => climbs (gy g) 0 (bYHeight b)
  end.
Proof.
  intros fuel b l g Hp Hl Hc Hg. unfold boundaryLayerGrid in Hg. rewrite Hl in Hg. injection Hg as <-. cbn [gy].
  pose proof (half_climbs _ _ _ Hl Hc) as Hh. destruct (yp1_unit b Hp) as [_ Hy]. unfold totalYs. unfold endYplus in Hh. destruct (bDomain b).
  - fold (mirror (halfYs l)). split.
    + pose proof (climbs_scale _ _ _ _ Hy (mirror_climbs _ _ _ Hh)) as C. replace (0 * yp1 b) with 0 in C by ring.
      replace ((2 * (bDelta b / yp1 b) - 0) * yp1 b) with (2 * bDelta b) in C by (field; lra). exact C.
    + intros i x y Hx Hy'. rewrite map_length in Hy'. rewrite nth_error_map in Hx, Hy'. destruct (nth_error (mirror (halfYs l)) i) as [x'|] eqn:E1; [|discriminate].
      destruct (nth_error (mirror (halfYs l)) (List.length (mirror (halfYs l)) - 1 - i)) as [y'|] eqn:E2; [|discriminate]. cbn [option_map] in Hx, Hy'. injection Hx as <-. injection Hy' as <-.
      rewrite <- Rmult_plus_distr_r, (mirror_symmetric _ _ Hh i x' y' E1 E2). field. lra.
  - pose proof (climbs_scale _ _ _ _ Hy Hh) as C. replace (0 * yp1 b) with 0 in C by ring. replace (bYHeight b / yp1 b * yp1 b) with (bYHeight b) in C by (field; lra). exact C.
Qed.

(** growth inside the layers: the viscous sublayer is uniform on [0, 5]; spacings grow by the given rates in the buffer and log layers, and stay
    below the core resolution in the log layer *)
Lemma nth_map_seq (f : nat -> R) n i a : nth_error (map f (seq 0 n)) i = Some a -> (i < n)%nat /\ a = f i.
Proof.
  intros H. assert (Hi : (i < n)%nat). { rewrite <- (seq_length n 0), <- (map_length f). apply nth_error_Some. congruence. }
  split; [exact Hi|]. rewrite nth_error_map, (nth_error_nth' _ 0%nat) in H by (rewrite seq_length; exact Hi). rewrite seq_nth in H by exact Hi. cbn [option_map Nat.add] in H. congruence.
Qed.
Theorem C123_growth : forall fuel b l, layersOf fuel b = Some l ->
  (forall i y, nth_error (lVSL l) i = Some y -> y = 5 * INR i / IZR (nVSLOf b - 1)) /\ Z.of_nat (List.length (lVSL l)) = nVSLOf b /\
  growsBy (buffGROf b) (lBuff l) /\ hd_error (lBuff l) = Some 5 /\ growsBy (logGROf b) (lLog l) /\ (forall d, spacing (lLog l) d -> 0 < d < dYcoreOf b) /\
  hd_error (lLog l) = nth_error (lBuff l) (List.length (lBuff l) - 1).
Proof.
  intros fuel b l H. destruct (layers_shape _ _ _ H) as (m & k & nC & Hn & Hg & Hl & HnC & EV & EB & Hs & EL & Hk1 & Hk2 & EnC & EC).
  set (n := nVSLOf b) in *. set (d := 5 / IZR (n - 1)) in *. set (B := bpt d (buffGROf b)) in *. set (s := B (S m) - B m) in *.
  split; [|split; [|split; [|split; [|split; [|split]]]]].
  - intros i y Hi. rewrite EV in Hi. apply nth_map_seq in Hi as [Hi ->]. unfold vpt. rewrite linspace_uniform by lia. rewrite INR_IZR_INZ. field. apply IZR_neq. lia.
  - rewrite EV, map_length, seq_length. lia.
  - intros i x y z Hx Hy Hz. rewrite EB in Hx, Hy, Hz. apply nth_map_seq in Hx as [_ ->]. apply nth_map_seq in Hy as [_ ->]. apply nth_map_seq in Hz as [_ ->].
    unfold B, bpt. cbn [gs]. simpl pow. field.
  - rewrite EB. cbn [seq map hd_error]. f_equal. unfold B, bpt. simpl. lra.
  - intros i x y z Hx Hy Hz. rewrite EL in Hx, Hy, Hz. apply nth_map_seq in Hx as [_ ->]. apply nth_map_seq in Hy as [_ ->]. apply nth_map_seq in Hz as [_ ->]. cbn [gs]. simpl pow. ring.
  - intros e (i & x & y & Hx & Hy & ->). rewrite EL in Hx, Hy. apply nth_map_seq in Hx as [_ ->]. apply nth_map_seq in Hy as [Hi ->].
    replace (B (S m) + s * gs (logGROf b) (S i) - (B (S m) + s * gs (logGROf b) i)) with (s * logGROf b ^ S i) by (cbn [gs]; ring).
    split; [apply Rmult_lt_0_compat; [lra|]; apply pow_lt; lra|]. apply Hk1. lia.
  - rewrite EL, EB. transitivity (Some (B (S m))).
    + cbn [seq map hd_error gs]. f_equal. ring.
    + symmetry. rewrite map_length, seq_length. replace (S (S m) - 1)%nat with (S m) by lia. rewrite nth_error_map, (nth_error_nth' _ 0%nat) by (rewrite seq_length; lia).
      rewrite seq_nth by lia. reflexivity.
Qed.

(** ** the loops end *)
Theorem C123_loops_end : forall s e gr d, 1 < gr -> 0 < d ->
  (0 < s < e -> exists l N, forall fuel, (N <= fuel)%nat -> ptsWithGR fuel s e gr d = Some l) /\ (d < e -> exists l N, forall fuel, (N <= fuel)%nat -> growToDy fuel d e gr = Some l).
Proof.
  intros s e gr d Hg Hd. split.
  - intros Hs. destruct (reach s d gr Hg e Hd) as (M & H1 & H2). destruct M as [|M]. { exfalso. unfold U in H1. simpl in H1. lra. }
    destruct (ptsWithGR_run (S (S M)) s e gr d M Hs Hg Hd H1 (fun i Hi => H2 i ltac:(lia)) ltac:(lia)) as (m & Hm & E & D1 & D2). eexists. exists (S (S M)). intros fuel Hf.
    destruct (ptsWithGR_run fuel s e gr d M Hs Hg Hd H1 (fun i Hi => H2 i ltac:(lia)) ltac:(lia)) as (m' & Hm' & E' & D1' & D2'). rewrite E'.
    pose proof (growLoop_run s d gr e (S M) Hd H1 (S M) 0 eq_refl (fun i Hi => H2 i ltac:(lia)) fuel ltac:(lia)) as G1.
    pose proof (growLoop_run s d gr e (S M) Hd H1 (S M) 0 eq_refl (fun i Hi => H2 i ltac:(lia)) (S (S M)) ltac:(lia)) as G2.
    rewrite stack0 in G1, G2. replace (U s d gr 0) with s in G1, G2 by (unfold U; simpl; ring). replace (d * gr ^ 1) with (d * gr) in G1, G2 by (simpl; ring).
    assert (EE : ptsWithGR fuel s e gr d = ptsWithGR (S (S M)) s e gr d) by (unfold ptsWithGR; rewrite G1, G2; reflexivity). rewrite E', E in EE. exact EE.
  - intros He. destruct (reachDy d gr Hg e Hd) as (M & H1 & H2). eexists. exists (S M). intros fuel Hf. apply (growToDy_run fuel d e gr M); [lra|exact Hg|exact H1|exact H2|lia].
Qed.

(** ** the buffer layer does not end at y+ = 30 *)
(** where it does end: 5 + 30 (p - 5) / 25, p the point of the unscaled progression nearest to 30 *)
Lemma powe n : (11/10) ^ n = 11 ^ n / 10 ^ n.
Proof. unfold Rdiv. rewrite Rpow_mult_distr, pow_inv. reflexivity. Qed.
Lemma gs11 n : gs (11/10) n = 11 * (11 ^ n / 10 ^ n - 1).
Proof. pose proof (gs_closed (11/10) n) as H. rewrite <- powe. simpl pow in H. lra. Qed.
Ltac num := rewrite ?gs11, ?powe; simpl pow; lra.
(** the default buffer layer (nVSL = 6, growth 1.1): thirteen points, the last above y+ = 33 *)
Lemma default_buffer fuel : (13 < fuel)%nat -> ptsWithGR fuel 5 30 (11/10) 1 = Some (map (bpt 1 (11/10)) (seq 0 13)).
Proof.
  intros Hf. destruct (ptsWithGR_run fuel 5 30 (11/10) 1 12) as (m & Hm & E & D1 & D2); [lra|lra|lra| | |lia|].
  - unfold U. num.
  - intros i Hi. assert (gs (11/10) i <= gs (11/10) 12) by (apply gs_le; [lra|lia]). assert (gs (11/10) 12 < 25) by num. unfold U. lra.
  - rewrite E. destruct Hm as [->| ->]; [|reflexivity]. exfalso. unfold U in D1. rewrite !Rabs_pos_eq in D1 by num. revert D1. rewrite Rabs_left by num. num.
Qed.
Theorem C123_buffer_end_refuted : exists fuel l y, ptsWithGR fuel 5 30 (11/10) (5 / (6 - 1)) = Some l /\ nth_error l (List.length l - 1) = Some y /\ 33 < y.
Proof.
  exists 14%nat, (map (bpt 1 (11/10)) (seq 0 13)), (bpt 1 (11/10) 12). split; [|split].
  - replace (5 / (6 - 1)) with 1 by lra. apply default_buffer. lia.
  - reflexivity.
  - unfold bpt. num.
Qed.

(** ** resolution: n = int(L / d) is used as the number of points, so there are n - 1 cells, all wider than d *)
Lemma too_wide L d n : 0 < d -> n = pyInt (L / d) -> (2 <= n)%Z -> d < L / IZR (n - 1) /\ L / IZR (n - 1) < d * (IZR n + 1) / IZR (n - 1).
Proof.
  intros Hd En Hn. pose proof (pyInt_pos _ _ (eq_sym En) ltac:(lia)) as [P Q]. assert (H1 : 0 < IZR (n - 1)) by (apply IZR_lt; lia).
  assert (EL : L = L / d * d) by (field; lra). assert (IZR n * d <= L) by (rewrite EL; apply Rmult_le_compat_r; lra). assert (L < (IZR n + 1) * d) by (rewrite EL at 1; apply Rmult_lt_compat_r; lra).
  rewrite minus_IZR in *. split.
  - apply Rmult_lt_reg_r with (IZR n - 1); [lra|]. unfold Rdiv. rewrite Rmult_assoc, Rinv_l by lra. nra.
  - unfold Rdiv. apply Rmult_lt_compat_r; [now apply Rinv_0_lt_compat|]. lra.
Qed.
Lemma linspace_gap a b n i : (2 <= n)%Z -> (0 <= i)%Z -> (i + 1 < n)%Z -> linspace a b n (i + 1) - linspace a b n i = (b - a) / IZR (n - 1).
Proof. intros Hn Hi Hj. rewrite !linspace_uniform by lia. rewrite plus_IZR. field. apply IZR_neq. lia. Qed.

Theorem C123_core_resolution_refuted : forall fuel b l d, layersOf fuel b = Some l -> spacing (lCore l) d -> dYcoreOf b < d.
Proof.
  intros fuel b l d H (i & x & y & Hx & Hy & ->). destruct (layers_shape _ _ _ H) as (m & k & nC & Hn & Hg & Hl & HnC & EV & EB & Hs & EL & Hk1 & Hk2 & EnC & EC).
  set (top := bpt _ _ (S m) + _) in *. rewrite EC, zrange_seq, map_map in Hx, Hy. apply nth_map_seq in Hx as [_ ->]. apply nth_map_seq in Hy as [Hi ->].
  replace (Z.of_nat (S i)) with (Z.of_nat i + 1)%Z by lia. rewrite linspace_gap by lia. apply (too_wide _ _ nC); [lra|exact EnC|lia].
Qed.
Theorem C123_horizontal_resolution_refuted : forall fuel b g, physicalInput b -> boundaryLayerGrid fuel b = Some g ->
  (0 < dXplusOf b -> forall i, (0 <= i)%Z -> (i + 1 < gnx g)%Z -> dXplusOf b * wallUnit (bDelta b) (bReTau b) < gx g (i + 1) - gx g i) /\
  (0 < dZplusOf b -> forall i, (0 <= i)%Z -> (i + 1 < gnz g)%Z -> dZplusOf b * wallUnit (bDelta b) (bReTau b) < gz g (i + 1) - gz g i).
Proof.
  intros fuel b g Hp Hg. destruct (yp1_unit b Hp) as [<- Hy]. unfold boundaryLayerGrid in Hg. destruct (layersOf fuel b); [|discriminate]. injection Hg as <-. cbn [gx gz gnx gnz].
  split; intros Hd i Hi Hj; rewrite linspace_gap by lia; replace (0 + Lx b - 0) with (Lx b) by ring; replace (0 + Lz b - 0) with (Lz b) by ring.
  - apply (too_wide _ _ (nx b)); [now apply Rmult_lt_0_compat|reflexivity|lia].
  - apply (too_wide _ _ (nz b)); [now apply Rmult_lt_0_compat|reflexivity|lia].
Qed.
(** how wide at most *)
Theorem C123_horizontal_resolution_partial : forall fuel b g, physicalInput b -> boundaryLayerGrid fuel b = Some g -> 0 < dXplusOf b -> (2 <= gnx g)%Z ->
  gx g 0 = 0 /\ gx g (gnx g - 1) = bXLength b * bDelta b /\
  forall i, (0 <= i)%Z -> (i + 1 < gnx g)%Z -> 0 < gx g (i + 1) - gx g i < dXplusOf b * wallUnit (bDelta b) (bReTau b) * (IZR (gnx g) + 1) / (IZR (gnx g) - 1).
Proof.
  intros fuel b g Hp Hg Hd Hn. destruct (yp1_unit b Hp) as [<- Hy]. unfold boundaryLayerGrid in Hg. destruct (layersOf fuel b); [|discriminate]. injection Hg as <-. cbn [gx gz gnx gnz] in *.
  split; [rewrite linspace_uniform by lia; unfold Rdiv; ring|]. split; [rewrite linspace_uniform by lia; unfold Lx; field; apply IZR_neq; lia|].
  intros i Hi Hj. rewrite linspace_gap by lia. replace (0 + Lx b - 0) with (Lx b) by ring.
  destruct (too_wide (Lx b) (dXplusOf b * yp1 b) (nx b)) as [T1 T2]; [now apply Rmult_lt_0_compat|reflexivity|lia|]. assert (0 < dXplusOf b * yp1 b) by now apply Rmult_lt_0_compat.
  rewrite minus_IZR in *. split; lra.
Qed.

(** ** the height of a boundary layer is yHeight metres, not yHeight times delta as the input template says *)
Theorem C123_bl_height_refuted : forall fuel b l g, physicalInput b -> bDomain b = Bl -> layersOf fuel b = Some l -> (2 <= List.length (lCore l))%nat -> boundaryLayerGrid fuel b = Some g ->
  bDelta b <> 1 -> bYHeight b <> 0 -> nth_error (gy g) (List.length (gy g) - 1) <> Some (bYHeight b * bDelta b).
Proof.
  intros fuel b l g Hp Hb Hl Hc Hg Hd Hy. pose proof (C123_heights fuel b l g Hp Hl Hc Hg) as H. rewrite Hb in H. destruct H as (_ & _ & ->). intros E. injection E as E.
  apply Hd. apply Rmult_eq_reg_l with (bYHeight b); lra.
Qed.

(** ** the default channel *)
Definition defaults (dom : domain) (ReTau : R) : blInput := mkBl dom (1/20) 3 2 6 (181/10000000) ReTau None None None None None None.
Definition sD : R := 12/10 * (11/10) ^ 12.
Definition topD : R := bpt 1 (11/10) 12 + sD * gs (11/10) 17.
Lemma default_layers dom ReTau fuel : (20 < fuel)%nat -> (0 <= pyInt ((endYplus (defaults dom ReTau) - topD) / 20))%Z -> layersOf fuel (defaults dom ReTau) =
  let nC := pyInt ((endYplus (defaults dom ReTau) - topD) / 20) in
  Some (mkLayers (map (linspace 0 5 6) (zrange 0 6)) (map (bpt 1 (11/10)) (seq 0 13)) (map (fun i => bpt 1 (11/10) 12 + sD * gs (11/10) i) (seq 0 18))
         (map (linspace topD (endYplus (defaults dom ReTau)) nC) (zrange 0 nC))).
Proof.
  intros Hf Hn. set (b := defaults dom ReTau) in *. unfold layersOf. change (nVSLOf b) with 6%Z. change (buffGROf b) with (11/10). change (logGROf b) with (11/10). change (dYcoreOf b) with 20.
  cbv zeta. change (2 <? 6)%Z with true. cbv iota. destruct (Rlt_dec 1 (11/10)) as [_|]; [|lra].
  assert (EV : lastTwo (map (linspace 0 5 6) (zrange 0 6)) = Some (5, 4)). { rewrite zrange_seq, map_map. change (Z.to_nat 6) with 6%nat. rewrite lastTwo_map_seq. cbn [Nat.add]. rewrite !linspace_uniform by lia. change (6 - 1)%Z with 5%Z. f_equal. f_equal; cbn [Z.of_nat Pos.of_succ_nat Pos.succ]; field. }
  rewrite EV. replace (5 - 4) with 1 by ring. rewrite default_buffer by lia. rewrite lastTwo_map_seq. cbn [Nat.add].
  replace (bpt 1 (11/10) 12 - bpt 1 (11/10) 11) with sD. 2:{ unfold sD, bpt. cbn [gs]. simpl pow. field. }
  rewrite (growToDy_run fuel sD 20 (11/10) 17); [| | lra | | | lia].
  - rewrite map_map, last_map_seq. cbn [Nat.add]. fold topD. destruct (Z.ltb_spec (pyInt ((endYplus b - topD) / 20)) 0); [lia|]. reflexivity.
  - unfold sD. num.
  - unfold sD. num.
  - intros i Hi. assert ((11/10) ^ i <= (11/10) ^ 17) by (apply Rle_pow; [lra|lia]). assert (0 < sD) by (unfold sD; num). assert (sD * (11/10) ^ i <= sD * (11/10) ^ 17) by (apply Rmult_le_compat_l; lra).
    assert (sD * (11/10) ^ 17 < 20) by (unfold sD; num). lra.
Qed.
Lemma topD_bounds : 201 < topD < 202.
Proof. unfold topD, sD, bpt. split; num. Qed.
Lemma endD dom ReTau : 0 < ReTau -> endYplus (defaults dom ReTau) = match dom with Channel => ReTau | Bl => 2 / (1/20) * ReTau end.
Proof. intros H. unfold endYplus, yp1, utau. destruct dom; cbn [defaults bDomain bDelta bYHeight bVisc bReTau]; field; lra. Qed.
Lemma pyInt_is x n : (0 <= n)%Z -> IZR n <= x < IZR n + 1 -> pyInt x = n.
Proof.
  intros Hn Hx. unfold pyInt. assert (0 <= IZR n) by (apply IZR_le; lia). destruct (Rle_dec 0 x); [|lra]. pose proof (base_Int_part x) as [P Q].
  assert (IZR (Int_part x) < IZR (n + 1)) by (rewrite plus_IZR; lra). assert (IZR n < IZR (Int_part x + 1)) by (rewrite plus_IZR; lra). apply lt_IZR in H0, H1. lia.
Qed.

(** the template's channel meets the hypotheses *)
Example C123_nonvacuous : exists l g, physicalInput (defaults Channel (58719/100)) /\ layersOf 21 (defaults Channel (58719/100)) = Some l /\ List.length (lCore l) = 19%nat /\
  boundaryLayerGrid 21 (defaults Channel (58719/100)) = Some g /\ climbs (gy g) 0 (1/10).
Proof.
  assert (En : pyInt ((endYplus (defaults Channel (58719/100)) - topD) / 20) = 19%Z). { apply pyInt_is; [lia|]. rewrite endD by lra. pose proof topD_bounds. split; lra. }
  pose proof (default_layers Channel (58719/100) 21 ltac:(lia) ltac:(rewrite En; lia)) as E. cbv zeta in E. rewrite En in E.
  assert (Hp : physicalInput (defaults Channel (58719/100))). { unfold physicalInput. cbn [defaults bDelta bVisc bReTau]. lra. }
  eexists. eexists. split; [exact Hp|]. split; [exact E|]. assert (L : List.length (map (linspace topD (endYplus (defaults Channel (58719/100))) 19) (zrange 0 19)) = 19%nat) by (rewrite map_length, zrange_length; reflexivity).
  split; [exact L|]. assert (G : boundaryLayerGrid 21 (defaults Channel (58719/100)) = Some (mkBg _ _ _ _ _)) by (unfold boundaryLayerGrid; rewrite E; reflexivity). split; [exact G|].
  pose proof (C123_heights _ _ _ _ Hp E ltac:(cbn [lCore]; rewrite L; lia) G) as [C _]. cbn [defaults bDelta] in C. replace (2 * (1/20)) with (1/10) in C by lra. exact C.
Qed.

(** with a Reynolds number of 230 the core gets one point: the "channel" stops short of its full height *)
Theorem C123_short_channel_refuted : exists fuel l g y, layersOf fuel (defaults Channel 230) = Some l /\ boundaryLayerGrid fuel (defaults Channel 230) = Some g /\
  nth_error (gy g) (List.length (gy g) - 1) = Some y /\ y < 2 * bDelta (defaults Channel 230) - 1/200.
Proof.
  assert (En : pyInt ((endYplus (defaults Channel 230) - topD) / 20) = 1%Z). { apply pyInt_is; [lia|]. rewrite endD by lra. pose proof topD_bounds. split; lra. }
  pose proof (default_layers Channel 230 21 ltac:(lia) ltac:(rewrite En; lia)) as E. cbv zeta in E. rewrite En in E. set (l := mkLayers _ _ _ _) in E.
  assert (Y : yp1 (defaults Channel 230) = 1/4600). { unfold yp1, utau. cbn [defaults bVisc bReTau bDelta]. lra. }
  assert (T : last (halfYs l) 0 = topD). { unfold halfYs. rewrite !app_assoc. apply last_last. }
  assert (Hd : exists r, halfYs l = 0 :: r). { unfold halfYs, l. cbn [lVSL]. rewrite zrange_cons by lia. cbn [map app]. eexists. f_equal. rewrite linspace_uniform by lia. change (6 - 1)%Z with 5%Z. field. }
  exists 21%nat, l. eexists. exists (2 * topD * (1/4600)). split; [exact E|]. split; [unfold boundaryLayerGrid; rewrite E; reflexivity|]. split.
  - cbn [gy]. rewrite map_length, nth_error_map. change (totalYs (defaults Channel 230) l) with (mirror (halfYs l)). destruct Hd as [r Hr].
    assert (Hne : halfYs l <> []) by (rewrite Hr; discriminate). rewrite mirror_length by exact Hne.
    assert (Hlen : (2 <= List.length (halfYs l))%nat). { unfold halfYs. rewrite app_length. cbn [lVSL l]. rewrite map_length, zrange_length. change (Z.to_nat (6 - 0)) with 6%nat. lia. }
    rewrite mirror_nth by (assumption || lia). destruct (Nat.ltb_spec (2 * List.length (halfYs l) - 1 - 1) (List.length (halfYs l))); [lia|].
    replace (2 * List.length (halfYs l) - 2 - (2 * List.length (halfYs l) - 1 - 1))%nat with 0%nat by lia. rewrite T, Hr. cbn [nth_error option_map]. f_equal. rewrite Y. lra.
  - cbn [defaults bDelta]. pose proof topD_bounds. lra.
Qed.

Print Assumptions C123_heights.
Print Assumptions C123_growth.
Print Assumptions C123_buffer_end_refuted.
Print Assumptions C123_short_channel_refuted.
