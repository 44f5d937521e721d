(** C120-C122: trace points. *)
From Coq Require Import Reals ZArith String Ascii List Bool Lia Lra.
From Verif Require Import M_Halo M_Grid L_Grid2 L_Halo1 M_Trace S_Trace.
Import ListNotations.
Open Scope R_scope.

(** * C120 the collections *)
Lemma nth_error_map_zrange {X} (f : Z -> X) n i : (0 <= i < n)%Z -> nth_error (map f (zrange 0 n)) (Z.to_nat i) = Some (f i).
Proof.
  intros H. rewrite nth_error_map. rewrite (nth_error_nth' _ 0%Z) by (rewrite zrange_length; lia).
  rewrite zrange_nth by lia. cbn [option_map]. repeat f_equal; lia.
Qed.

Lemma linspace_fraction a b n i : (2 <= n)%Z -> (0 <= i < n)%Z -> linspace a b n i = a + fraction i n * (b - a).
Proof. intros H1 H2. rewrite linspace_uniform by lia. unfold fraction. field. apply IZR_neq. lia. Qed.

Theorem C120_line : forall p0 p1 n, (2 <= n)%Z -> exists l, createLine p0 p1 n = Some l /\ evenlySpaced p0 p1 n l /\
  nth_error l 0 = Some p0 /\ nth_error l (Z.to_nat (n - 1)) = Some p1.
Proof.
  intros [[x0 y0] z0] [[x1 y1] z1] n Hn. unfold createLine. replace (n <? 0)%Z with false by (symmetry; apply Z.ltb_ge; lia).
  eexists. split; [reflexivity|]. split; [|split].
  - split; [rewrite map_length, zrange_length; f_equal; lia|]. intros i Hi. rewrite nth_error_map_zrange by lia. unfold c0, c1, c2. cbn [fst snd along].
    rewrite !linspace_fraction by lia. f_equal. f_equal; [f_equal|]; ring.
  - change 0%nat with (Z.to_nat 0). rewrite nth_error_map_zrange by lia. unfold c0, c1, c2. cbn [fst snd]. rewrite !linspace_fraction by lia.
    unfold fraction. f_equal. unfold Rdiv. rewrite !Rmult_0_l. f_equal; [f_equal|]; lra.
  - rewrite nth_error_map_zrange by lia. unfold c0, c1, c2. cbn [fst snd]. unfold linspace.
    replace (n <=? 1)%Z with false by (symmetry; apply Z.leb_gt; lia). rewrite Z.eqb_refl. reflexivity.
Qed.

(** one point when n = 1, the start *)
Theorem C120_line_of_one : forall p0 p1, createLine p0 p1 1 = Some [p0].
Proof. intros [[x0 y0] z0] [[x1 y1] z1]. reflexivity. Qed.

Lemma flat_map_length {X Y} (f : X -> list Y) m l : (forall x, In x l -> List.length (f x) = m) -> List.length (flat_map f l) = (List.length l * m)%nat.
Proof. induction l as [|x l IH]; intros H; cbn [flat_map List.length]; [reflexivity|]. rewrite app_length, H, IH; [lia| |now left]. intros y Hy. apply H. now right. Qed.

Lemma nth_flat_map {X Y} (f : X -> list Y) m : forall l a b x, (b < m)%nat -> (forall x, In x l -> List.length (f x) = m) -> nth_error l a = Some x ->
  nth_error (flat_map f l) (a * m + b) = nth_error (f x) b.
Proof.
  induction l as [|y l IH]; intros a b x Hb Hl Ha; [destruct a; discriminate|]. cbn [flat_map]. destruct a as [|a].
  - cbn [nth_error] in Ha. injection Ha as ->. cbn [Nat.mul Nat.add]. apply nth_error_app1. rewrite Hl; [exact Hb|now left].
  - cbn [nth_error] in Ha. rewrite nth_error_app2; rewrite (Hl y) by (now left); [|cbn [Nat.mul]; lia].
    replace (S a * m + b - m)%nat with (a * m + b)%nat by (cbn [Nat.mul]; lia). apply IH; [exact Hb| |exact Ha]. intros z Hz. apply Hl. now right.
Qed.

(** What createPlane delivers: the parallelogram spanned by the UNIT vectors towards p1 and p2 *)
Lemma plane_points p0 p1 p2 n1 n2 : (2 <= n1)%Z -> (2 <= n2)%Z -> norm3 (sub3 p1 p0) <> 0 -> norm3 (sub3 p2 p0) <> 0 ->
  exists l, createPlane p0 p1 p2 n1 n2 = Some l /\ List.length l = Z.to_nat (n1 * n2) /\
    forall i j, (0 <= i < n1)%Z -> (0 <= j < n2)%Z ->
      nth_error l (Z.to_nat (i * n2 + j)) = Some (along p0 p1 p2 (fraction i n1 / norm3 (sub3 p1 p0)) (fraction j n2 / norm3 (sub3 p2 p0))).
Proof.
  intros H1 H2 N1 N2. unfold createPlane. replace (n1 <? 0)%Z with false by (symmetry; apply Z.ltb_ge; lia).
  replace (n2 <? 0)%Z with false by (symmetry; apply Z.ltb_ge; lia). cbn [orb]. unfold over.
  destruct (Req_EM_T (norm3 (sub3 p1 p0)) 0); [contradiction|]. destruct (Req_EM_T (norm3 (sub3 p2 p0)) 0); [contradiction|].
  eexists. split; [reflexivity|]. split.
  - rewrite (flat_map_length _ (Z.to_nat n2)). { rewrite zrange_length. rewrite <- Z2Nat.inj_mul by lia. f_equal. lia. }
    intros x _. rewrite map_length, zrange_length. f_equal. lia.
  - intros i j Hi Hj. replace (Z.to_nat (i * n2 + j)) with (Z.to_nat i * Z.to_nat n2 + Z.to_nat j)%nat by (rewrite Z2Nat.inj_add, Z2Nat.inj_mul by lia; reflexivity).
    rewrite (nth_flat_map _ (Z.to_nat n2) _ _ _ i); [| lia | intros x _; rewrite map_length, zrange_length; f_equal; lia |].
    2:{ rewrite (nth_error_nth' _ 0%Z) by (rewrite zrange_length; lia). rewrite zrange_nth by lia. f_equal; lia. }
    rewrite nth_error_map_zrange by lia. destruct p0 as [[x0 y0] z0], p1 as [[x1 y1] z1], p2 as [[x2 y2] z2].
    rewrite !linspace_fraction by lia. unfold c0 at 1 3 5, c1 at 1 3 5, c2 at 1 3 5. cbn [fst snd along]. f_equal.
    set (a := norm3 _) in *. set (b := norm3 _) in *.
    f_equal; [f_equal|]; unfold c0, c1, c2, sub3; cbn [fst snd]; unfold c0, c1, c2; cbn [fst snd]; field; auto.
Qed.

(** the plane reaches p1 and p2 only if these are at distance one from p0 *)
Theorem C120_plane_partial : forall p0 p1 p2 n1 n2, (2 <= n1)%Z -> (2 <= n2)%Z -> sqDist p0 p1 = 1 -> sqDist p0 p2 = 1 ->
  exists l, createPlane p0 p1 p2 n1 n2 = Some l /\ parallelogram p0 p1 p2 n1 n2 l.
Proof.
  intros p0 p1 p2 n1 n2 H1 H2 D1 D2.
  assert (N : forall p, sqDist p0 p = 1 -> norm3 (sub3 p p0) = 1).
  { intros [[x y] z] D. destruct p0 as [[x0 y0] z0]. cbn [sqDist] in D. unfold norm3, sub3, c0, c1, c2. cbn [fst snd]. rewrite D. apply sqrt_1. }
  destruct (plane_points p0 p1 p2 n1 n2 H1 H2) as (l & E & L & P); [rewrite N by assumption; lra..|].
  exists l. split; [exact E|]. split; [exact L|]. intros i j Hi Hj. rewrite P by assumption. rewrite !N by assumption. unfold Rdiv. rewrite Rinv_1, !Rmult_1_r. reflexivity.
Qed.

(** whatever the corners, the last point of the plane is p0 plus a unit vector towards p1 plus a unit vector towards p2; and a plane of
    length 2 misses its corner p1 *)
Theorem C120_plane_refuted : exists p0 p1 p2 n1 n2 l, (2 <= n1)%Z /\ (2 <= n2)%Z /\ p1 <> p0 /\ p2 <> p0 /\
  createPlane p0 p1 p2 n1 n2 = Some l /\ ~ parallelogram p0 p1 p2 n1 n2 l /\ ~ In p1 l /\ ~ In p2 l.
Proof.
  set (p0 := (0, 0, 0) : pt3). set (p1 := (2, 0, 0) : pt3). set (p2 := (0, 2, 0) : pt3).
  assert (N1 : norm3 (sub3 p1 p0) = 2). { unfold norm3, sub3, p1, p0, c0, c1, c2. cbn [fst snd]. replace (_ + _) with (2 * 2) by ring. apply sqrt_square. lra. }
  assert (N2 : norm3 (sub3 p2 p0) = 2). { unfold norm3, sub3, p2, p0, c0, c1, c2. cbn [fst snd]. replace (_ + _) with (2 * 2) by ring. apply sqrt_square. lra. }
  destruct (plane_points p0 p1 p2 2 2) as (l & E & L & P); [lia|lia|rewrite N1; lra|rewrite N2; lra|].
  assert (Hl : forall q, In q l -> exists i j, (0 <= i < 2)%Z /\ (0 <= j < 2)%Z /\ q = along p0 p1 p2 (fraction i 2 / 2) (fraction j 2 / 2)).
  { intros q Hq. apply In_nth_error in Hq as [m Hm]. assert (Hm' : (m < 4)%nat). { change 4%nat with (Z.to_nat (2 * 2)). rewrite <- L. apply nth_error_Some. congruence. }
    exists (Z.of_nat m / 2)%Z, (Z.of_nat m mod 2)%Z. pose proof (Z.mod_pos_bound (Z.of_nat m) 2 ltac:(lia)). pose proof (Z.div_mod (Z.of_nat m) 2 ltac:(lia)).
    assert (0 <= Z.of_nat m / 2 < 2)%Z by lia. split; [assumption|]. split; [assumption|]. specialize (P (Z.of_nat m / 2) (Z.of_nat m mod 2))%Z.
    rewrite N1, N2 in P. replace (Z.to_nat (Z.of_nat m / 2 * 2 + Z.of_nat m mod 2)) with m in P by lia. rewrite Hm in P. specialize (P ltac:(assumption) ltac:(assumption)). congruence. }
  assert (Hb : forall i, (0 <= i < 2)%Z -> fraction i 2 <= 1). { intros i Hi. unfold fraction. replace (IZR (2 - 1)) with 1 by (f_equal; reflexivity). assert (IZR i <= IZR 1) by (apply IZR_le; lia). lra. }
  exists p0, p1, p2, 2%Z, 2%Z, l. split; [lia|]. split; [lia|]. split; [unfold p0, p1; intros H; injection H; lra|]. split; [unfold p0, p2; intros H; injection H; lra|].
  split; [exact E|].
  assert (M1 : ~ In p1 l). { intros H. apply Hl in H as (i & j & Hi & Hj & Hq). pose proof (Hb i Hi). unfold p0, p1, p2 in Hq. cbn [along] in Hq. injection Hq. intros. lra. }
  assert (M2 : ~ In p2 l). { intros H. apply Hl in H as (i & j & Hi & Hj & Hq). pose proof (Hb j Hj). unfold p0, p1, p2 in Hq. cbn [along] in Hq. injection Hq. intros. lra. }
  split; [|split; assumption]. intros [_ Hp]. specialize (Hp 1 0)%Z. specialize (Hp ltac:(lia) ltac:(lia)). apply nth_error_In in Hp. apply M1.
  replace p1 with (along p0 p1 p2 (fraction 1 2) (fraction 0 2)); [exact Hp|].
  unfold p0, p1, p2, fraction. cbn [along]. replace (IZR (2 - 1)) with 1 by (f_equal; reflexivity). f_equal; [f_equal|]; field.
Qed.

(** one tag per point, and each tag is the heading of the collection its point came from *)
Inductive taggedBy : list (string * collection) -> list pt3 -> list string -> Prop :=
| tb_nil : taggedBy [] [] []
| tb_cons name c rest l ps ts : (forall p t, c <> CUdf p t) -> pointsOf name c = Some (l, repeat name (List.length l)) -> taggedBy rest ps ts ->
    taggedBy ((name, c) :: rest) (l ++ ps) (repeat name (List.length l) ++ ts)
| tb_udf name l t rest ps ts : taggedBy rest ps ts -> taggedBy ((name, CUdf l t) :: rest) (l ++ ps) (t ++ ts).
Lemma map_const_repeat {X Y} (n : Y) (l : list X) : map (fun _ => n) l = repeat n (List.length l).
Proof. induction l; cbn [map List.length repeat]; congruence. Qed.
Theorem C120_tags : forall inp ps ts, pointsTags inp = Some (ps, ts) -> taggedBy inp ps ts /\
  ((forall name l t, In (name, CUdf l t) inp -> List.length l = List.length t) -> List.length ps = List.length ts).
Proof.
  induction inp as [|[name c] inp IH]; intros ps ts H; cbn [pointsTags] in H.
  - injection H as <- <-. split; [constructor|reflexivity].
  - destruct (pointsOf name c) as [[l t]|] eqn:Ep; [|discriminate]. destruct (pointsTags inp) as [[ps' ts']|] eqn:Er; [|discriminate].
    injection H as <- <-. destruct (IH _ _ eq_refl) as [HT HL].
    assert (Ht : (exists p q, c = CUdf p q) \/ ((forall p q, c <> CUdf p q) /\ t = repeat name (List.length l))).
    { destruct c as [p|p q n|p q r n m| |p q|]; cbn [pointsOf] in Ep; try discriminate; [right..|left; eauto]; (split; [discriminate|]).
      - injection Ep as <- <-. reflexivity.
      - destruct (createLine p q n); [|discriminate]. injection Ep as <- <-. apply map_const_repeat.
      - destruct (createPlane p q r n m); [|discriminate]. injection Ep as <- <-. apply map_const_repeat. }
    destruct Ht as [(p & q & ->)|[Hn ->]].
    + cbn [pointsOf] in Ep. injection Ep as <- <-. split; [now constructor|]. intros Hu. rewrite !app_length, HL; [|intros; apply (Hu name0 l t); now right].
      f_equal. apply (Hu name p q). now left.
    + split; [now constructor|]. intros Hu. rewrite !app_length, repeat_length, HL; [reflexivity|]. intros; apply (Hu name0 l0 t); now right.
Qed.

(** a circle stops the utility *)
Theorem C120_circle_raises : forall inp name, In (name, CCircle) inp -> pointsTags inp = None.
Proof.
  induction inp as [|[n c] inp IH]; intros name H; [destruct H|]. cbn [pointsTags]. destruct H as [H|H].
  - injection H as -> ->. reflexivity.
  - rewrite (IH _ H). destruct (pointsOf n c) as [[? ?]|]; reflexivity.
Qed.

Example C120_nonvacuous : exists l, createLine (0, 0, 0) (1, 2, 3) 3 = Some l /\ nth_error l 1 = Some (1/2, 1, 3/2).
Proof.
  destruct (C120_line (0, 0, 0) (1, 2, 3) 3 ltac:(lia)) as (l & E & (_ & H) & _). exists l. split; [exact E|]. specialize (H 1%Z ltac:(lia)).
  change (Z.to_nat 1) with 1%nat in H. etransitivity; [exact H|]. cbn [along]. unfold fraction. replace (IZR (3 - 1)) with 2 by (f_equal; reflexivity). f_equal. f_equal; [f_equal|]; field.
Qed.
Example C120_plane_nonvacuous : sqDist (0, 0, 0) (1, 0, 0) = 1 /\ sqDist (0, 0, 0) (0, 1, 0) = 1.
Proof. cbn [sqDist]. split; ring. Qed.

(** * C121 looking the points up *)
(** the model's blocks as regions *)
Definition asRegion (b : pblk) : region := mkRegion (pb_n b) (pb_inside b) (pb_first b :: pb_rest b).

Lemma nearest_spec p b : exists x, In (nearestCell p b, x) (pb_first b :: pb_rest b) /\ forall c' x', In (c', x') (pb_first b :: pb_rest b) -> sqDist p x <= sqDist p x'.
Proof.
  unfold nearestCell. set (f := fun best c => _).
  assert (G : forall l b0, let r := fold_left f l b0 in In r (b0 :: l) /\ forall c, In c (b0 :: l) -> distTo p (snd r) <= distTo p (snd c)).
  { induction l as [|c l IH]; intros b0; cbn [fold_left]; cbv zeta.
    - split; [now left|]. intros c [<-|[]]. lra.
    - destruct (IH (f b0 c)) as [I1 I2]. assert (Hf : (f b0 c = c /\ distTo p (snd c) < distTo p (snd b0)) \/ (f b0 c = b0 /\ distTo p (snd b0) <= distTo p (snd c))).
      { unfold f. destruct (Rlt_dec (distTo p (snd c)) (distTo p (snd b0))); [left; auto|right; split; [reflexivity|lra]]. }
      pose proof (I2 _ (or_introl eq_refl)) as I3. set (r := fold_left f l (f b0 c)) in *. split.
      + destruct I1 as [I1|I1]; [|right; now right]. destruct Hf as [[E _]|[E _]]; rewrite E in I1; rewrite <- I1; [right; now left|now left].
      + intros c' [<-|[<-|Hc]]; [destruct Hf as [[E ?]|[E ?]]; rewrite E in I3; lra..|]. apply I2. now right. }
  destruct (G (pb_rest b) (pb_first b)) as [G1 G2]. cbv zeta in G1, G2. set (r := fold_left _ _ _) in *. exists (snd r). rewrite <- surjective_pairing. split; [exact G1|].
  intros c' x' H. specialize (G2 _ H). cbn [snd] in G2.
  assert (S : forall q, distTo p q = sqrt (sqDist p q)). { intros [[x y] z]. destruct p as [[x0 y0] z0]. unfold distTo, c0, c1, c2. cbn [fst snd sqDist]. f_equal. ring. }
  rewrite !S in G2. apply sqrt_le_0; [| |exact G2].
  - destruct p as [[? ?] ?], (snd r) as [[? ?] ?]. cbn [sqDist]. pose proof (Rle_0_sqr (r3 - r0)). pose proof (Rle_0_sqr (r4 - r1)). pose proof (Rle_0_sqr (r5 - r2)). unfold Rsqr in *. lra.
  - destruct p as [[? ?] ?], x' as [[? ?] ?]. cbn [sqDist]. pose proof (Rle_0_sqr (r3 - r0)). pose proof (Rle_0_sqr (r4 - r1)). pose proof (Rle_0_sqr (r5 - r2)). unfold Rsqr in *. lra.
Qed.

(** what a sweep over the blocks [done] knows about each point *)
Definition knows (done : list pblk) (p : pt3) (f : option (Z * (Z * Z * Z))) : Prop :=
  match f with Some (n, c) => home (map asRegion done) p n c | None => homeless (map asRegion done) p end.

Lemma home_snoc g p n c b : home g p n c -> home (g ++ [b]) p n c.
Proof. intros (bf & b0 & af & -> & H). exists bf, b0, (af ++ [b]). split; [rewrite <- app_assoc; reflexivity|exact H]. Qed.

Lemma oneBlock_ok done b : forall pts found, Forall2 (knows done) pts found -> exists f, oneBlock true b pts found = Done f /\ Forall2 (knows (done ++ [b])) pts f.
Proof.
  intros pts found H. induction H as [|p f pts found Hk H IH]; cbn [oneBlock]; [exists []; split; [reflexivity|constructor]|].
  destruct IH as (l & -> & IH). destruct f as [[n c]|].
  - eexists. split; [reflexivity|]. constructor; [|exact IH]. unfold knows in *. rewrite map_app. now apply home_snoc.
  - destruct (pb_inside b p) eqn:Ein.
    + eexists. split; [reflexivity|]. constructor; [|exact IH]. unfold knows in *. rewrite map_app. exists (map asRegion done), (asRegion b), []. split; [reflexivity|].
      split; [exact Hk|]. split; [exact Ein|]. split; [reflexivity|]. apply nearest_spec.
    + eexists. split; [reflexivity|]. constructor; [|exact IH]. unfold knows in *. rewrite map_app. intros b' Hb. apply in_app_or in Hb as [Hb|[<-|[]]]; [now apply Hk|exact Ein].
Qed.

Lemma allBlocks_ok : forall bs done pts found, Forall2 (knows done) pts found -> exists f, allBlocks true bs pts found = Done f /\ Forall2 (knows (done ++ bs)) pts f.
Proof.
  induction bs as [|b bs IH]; intros done pts found H; cbn [allBlocks].
  - exists found. split; [reflexivity|]. now rewrite app_nil_r.
  - destruct (oneBlock_ok done b pts found H) as (f & -> & H'). destruct (IH _ _ _ H') as (g & E & G). exists g. split; [exact E|]. now rewrite <- app_assoc in G.
Qed.

(** the points with a home, in order, with their homes and tags *)
Inductive homes (g : list region) : list pt3 -> list string -> list (Z * (Z * Z * Z)) -> list string -> Prop :=
| homes_nil : homes g [] [] [] []
| homes_in p pts t ts n c rows ks : home g p n c -> homes g pts ts rows ks -> homes g (p :: pts) (t :: ts) ((n, c) :: rows) (t :: ks)
| homes_out p pts t ts rows ks : homeless g p -> homes g pts ts rows ks -> homes g (p :: pts) (t :: ts) rows ks.

(** with the metric call repaired ([lookUp true]), every point that lies in a block is written with that block, its nearest cell and its tag;
    the others are dropped *)
Theorem C121_homes_partial : forall bs (pts : list pt3) tags, List.length pts = List.length tags ->
  exists rows ks, lookUp true bs pts tags = Done (rows, ks) /\ homes (map asRegion bs) pts tags rows ks.
Proof.
  intros bs pts tags HL. unfold lookUp.
  destruct (allBlocks_ok bs [] pts (map (fun _ => None) pts)) as (f & -> & H). { clear HL. induction pts; cbn [map]; constructor; [intros b []|apply IHpts]. }
  rewrite HL, Nat.eqb_refl. cbn [app] in H. revert tags HL. induction H as [|p x pts f Hk H IH]; intros [|t ts] HL; cbn [List.length] in HL; try discriminate; cbn [kept].
  - exists [], []. split; [reflexivity|constructor].
  - destruct (IH ts ltac:(lia)) as (rows & ks & E & Hh). destruct (kept f ts) as [a b]. injection E as -> ->.
    destruct x as [[n c]|]; eexists; eexists; (split; [reflexivity|]); constructor; assumption.
Qed.

(** without any point in the grid nothing is written, and that is all the utility as it stands can do *)
Theorem C121_all_homeless : forall bs (pts : list pt3) tags, List.length pts = List.length tags -> (forall p, In p pts -> homeless (map asRegion bs) p) ->
  generateTracePoints bs pts tags = Done ([], []).
Proof.
  intros bs pts tags HL Hh. unfold generateTracePoints, lookUp.
  assert (G : forall bs, (forall p, In p pts -> homeless (map asRegion bs) p) -> forall a, allBlocks a bs pts (map (fun _ => None) pts) = Done (map (fun _ => None) pts)).
  { clear. intros bs Hh a. revert Hh. induction bs as [|b bs IH]; intros Hh; cbn [allBlocks]; [reflexivity|].
    assert (E : oneBlock a b pts (map (fun _ => None) pts) = Done (map (fun _ => None) pts)).
    { assert (Hb : forall p, In p pts -> pb_inside b p = false) by (intros p Hp; apply (Hh p Hp (asRegion b)); now left).
      clear Hh IH. induction pts as [|p ps IHp]; cbn [map oneBlock]; [reflexivity|]. rewrite (Hb p) by (now left). rewrite IHp; [reflexivity|]. intros q Hq. apply Hb. now right. }
    rewrite E. apply IH. intros p Hp b' Hb'. apply (Hh p Hp). now right. }
  rewrite G by exact Hh. rewrite HL, Nat.eqb_refl. clear - HL. revert tags HL. induction pts as [|p pts IH]; intros [|t ts] HL; cbn [List.length] in HL; try discriminate; [reflexivity|].
  cbn [map kept]. apply IH. lia.
Qed.

(** any point inside any block: TypeError *)
Theorem C121_lookup_refuted : forall bs (pts : list pt3) tags b p, In b bs -> In p pts -> covers (asRegion b) p = true -> generateTracePoints bs pts tags = Raised TypeError.
Proof.
  intros bs pts tags b p Hb Hp Hin. unfold generateTracePoints, lookUp. change (bindOk computeMetricsParams 2 ["xcOnly"%string]) with false.
  assert (O : forall b, (exists p, In p pts /\ pb_inside b p = true) -> oneBlock false b pts (map (fun _ => None) pts) = Raised TypeError).
  { clear. intros b (p & Hp & Hin). induction pts as [|q pts IH]; [destruct Hp|]. cbn [map oneBlock]. destruct (pb_inside b q) eqn:E; [reflexivity|].
    destruct Hp as [->|Hp]; [congruence|]. now rewrite (IH Hp). }
  assert (O' : forall b, ~ (exists p, In p pts /\ pb_inside b p = true) -> oneBlock false b pts (map (fun _ => None) pts) = Done (map (fun _ => None) pts)).
  { clear. intros b Hn. induction pts as [|q pts IH]; cbn [map oneBlock]; [reflexivity|]. destruct (pb_inside b q) eqn:E; [exfalso; apply Hn; exists q; split; [now left|exact E]|].
    rewrite IH; [reflexivity|]. intros (p & H1 & H2). apply Hn. exists p. split; [now right|exact H2]. }
  assert (A : forall bs, In b bs -> allBlocks false bs pts (map (fun _ => None) pts) = Raised TypeError).
  { induction bs0 as [|b0 bs0 IH]; [intros []|]. intros [->|H]; cbn [allBlocks].
    - rewrite O by (exists p; split; assumption). reflexivity.
    - destruct (existsb (pb_inside b0) pts) eqn:E.
      + apply existsb_exists in E. rewrite O by exact E. reflexivity.
      + rewrite O'; [apply IH, H|]. rewrite <- existsb_exists. congruence. }
  now rewrite A by exact Hb.
Qed.

Definition exBlk : pblk := mkPb 3 (fun p => if Rlt_dec (c0 p) 1 then true else false) ((0, 0, 0)%Z, (1/4, 0, 0)) [((1, 0, 0)%Z, (3/4, 0, 0))].
Example C121_nonvacuous : covers (asRegion exBlk) (0, 0, 0) = true /\ homeless (map asRegion [exBlk]) (2, 0, 0) /\
  exists ks, lookUp true [exBlk] [(2, 0, 0); (7/10, 0, 0)] ["a"; "b"]%string = Done ([(3, (1, 0, 0))]%Z, ks) /\ ks = ["b"%string].
Proof.
  split; [|split].
  - cbn [asRegion covers exBlk pb_inside]. unfold c0. cbn [fst]. destruct (Rlt_dec 0 1); [reflexivity|lra].
  - intros b [<-|[]]. cbn [asRegion covers exBlk pb_inside]. unfold c0. cbn [fst]. destruct (Rlt_dec 2 1); [lra|reflexivity].
  - destruct (C121_homes_partial [exBlk] [(2, 0, 0); (7/10, 0, 0)] ["a"; "b"]%string eq_refl) as (rows & ks & E & H). exists ks.
    assert (B : covers (asRegion exBlk) (2, 0, 0) = false /\ covers (asRegion exBlk) (7/10, 0, 0) = true).
    { cbn [asRegion covers exBlk pb_inside]. unfold c0. cbn [fst]. destruct (Rlt_dec 2 1); [lra|]. destruct (Rlt_dec (7/10) 1); [split; reflexivity|lra]. }
    destruct B as [B1 B2].
    assert (Q : rows = [(3, (1, 0, 0))]%Z /\ ks = ["b"%string]); [|destruct Q as [-> ->]; auto].
    inversion H as [|p0 pts0 t0 ts0 n0 cc rows0 ks0 Hh Hr|p0 pts0 t0 ts0 rows0 ks0 Hh Hr]; subst.
    { exfalso. destruct Hh as (bf & b & af & Eb & _ & Hc & _). assert (In b (map asRegion [exBlk])) by (rewrite Eb; apply in_elt). destruct H0 as [<-|[]]. congruence. }
    inversion Hr as [|p1 pts1 t1 ts1 n1 cc1 rows1 ks1 Hh1 Hr1|p1 pts1 t1 ts1 rows1 ks1 Hh1 Hr1]; subst.
    2:{ exfalso. specialize (Hh1 (asRegion exBlk) (or_introl eq_refl)). congruence. }
    inversion Hr1; subst. split; [|reflexivity]. destruct Hh1 as (bf & b & af & Eb & _ & Hc & Hn & x & Hx & Hmin).
    assert (Hb : b = asRegion exBlk). { assert (In b (map asRegion [exBlk])) by (rewrite Eb; apply in_elt). destruct H0 as [<-|[]]; reflexivity. }
    subst b. cbn [asRegion number exBlk pb_n] in Hn. subst n1. cbn [asRegion exBlk centres pb_first pb_rest] in Hx, Hmin. repeat f_equal.
    destruct Hx as [Hx|[Hx|[]]]; injection Hx as <- <-; [|reflexivity]. exfalso.
    specialize (Hmin (1, 0, 0)%Z (3/4, 0, 0) (or_intror (or_introl eq_refl))). cbn [sqDist] in Hmin. lra.
Qed.

(** * C122 the trace files *)
(** ** serial numbering: the blocks of the list are numbered 0, 1, 2, ... *)
Definition serial (mb : list tblk) : Prop := forall i b, nth_error mb i = Some b -> tb_n b = Z.of_nat i.

Lemma getBlk_serial mb i b : serial mb -> nth_error mb i = Some b -> getBlk mb (Z.of_nat i) = GotBlock b.
Proof.
  intros Hs Hi. unfold getBlk. destruct (Z.ltb_spec (Z.of_nat i) 0); [lia|]. rewrite Nat2Z.id, Hi. rewrite (Hs _ _ Hi), Z.eqb_refl. reflexivity.
Qed.

(** a time step of the run: the iteration number, the time and the blocks with their current values *)
Record tstep := mkTs { ts_nrt : Z; ts_tme : R; ts_mb : list tblk }.
Fixpoint runTraces (niter : Z) (ts : list tpoint) (h : list tstep) (d : files) : option files :=
  match h with [] => Some d | s :: h' => match callTraces niter ts (ts_mb s) (ts_nrt s) (ts_tme s) d with Some d' => runTraces niter ts h' d' | None => None end end.

(** the rows due at one step for the file f: one per trace point writing to f, in order *)
Definition rowAt (s : tstep) (t : tpoint) (b : tblk) : tline := Row (ts_tme s :: tb_q b (tp_i t) (tp_j t) (tp_k t)).
Definition blockOf (mb : list tblk) (n : Z) : option tblk := nth_error mb (Z.to_nat n).
Definition rowsAt (niter : Z) (f : string) (ts : list tpoint) (s : tstep) : list tline :=
  if (ts_nrt s mod niter =? 0)%Z
  then flat_map (fun t => if String.eqb f (tp_file t) then match blockOf (ts_mb s) (tp_blk t) with Some b => [rowAt s t b] | None => [] end else []) ts
  else [].

Lemma foldM_rows mb tme : serial mb -> forall ts, (forall t, In t ts -> (0 <= tp_blk t < Z.of_nat (List.length mb))%Z) -> forall d,
  exists d', foldM (writeRow mb tme) ts d = Some d' /\ forall f, d' f =
    (match flat_map (fun t => if String.eqb f (tp_file t) then match blockOf mb (tp_blk t) with Some b => [Row (tme :: tb_q b (tp_i t) (tp_j t) (tp_k t))] | None => [] end else []) ts with
     | [] => d f | l => Some (match d f with Some l0 => l0 | None => [] end ++ l) end).
Proof.
  intros Hs. induction ts as [|t ts IH]; intros Ht d; cbn [foldM flat_map]; [exists d; auto|].
  assert (Hb := Ht t (or_introl eq_refl)). destruct (nth_error mb (Z.to_nat (tp_blk t))) as [b|] eqn:En.
  2:{ apply nth_error_None in En. lia. }
  assert (G : getBlk mb (tp_blk t) = GotBlock b). { rewrite <- (Z2Nat.id (tp_blk t)) by lia. apply getBlk_serial; assumption. }
  unfold writeRow at 1. rewrite G. edestruct (IH (fun t' H => Ht t' (or_intror H))) as (d' & -> & Hd). exists d'. split; [reflexivity|].
  intros f. rewrite Hd. clear Hd. unfold blockOf at 2. rewrite En. destruct (String.eqb f (tp_file t)) eqn:Ef; [|reflexivity]. cbn [app].
  destruct (flat_map _ ts) as [|r l]; [reflexivity|]. rewrite <- app_assoc. reflexivity.
Qed.

(** every trace file gains exactly the rows due to it, at exactly the steps whose number is a multiple of niterTrace *)
Theorem C122_rows : forall niter ts h d, niter <> 0%Z -> (forall s, In s h -> serial (ts_mb s) /\ forall t, In t ts -> (0 <= tp_blk t < Z.of_nat (List.length (ts_mb s)))%Z) ->
  exists d', runTraces niter ts h d = Some d' /\
    forall f l, d f = Some l -> d' f = Some (l ++ flat_map (rowsAt niter f ts) h).
Proof.
  intros niter ts h d Hn. revert d. induction h as [|s h IH]; intros d Hh; cbn [runTraces flat_map].
  - exists d. split; [reflexivity|]. intros f l ->. now rewrite app_nil_r.
  - destruct (Hh s (or_introl eq_refl)) as [Hs Ht]. unfold callTraces. destruct (Z.eqb_spec niter 0); [contradiction|].
    unfold rowsAt at 1. destruct (ts_nrt s mod niter =? 0)%Z eqn:Ed.
    + destruct (foldM_rows (ts_mb s) (ts_tme s) Hs ts Ht d) as (d1 & -> & H1). destruct (IH d1 (fun s' H => Hh s' (or_intror H))) as (d' & -> & H').
      exists d'. split; [reflexivity|]. intros f l Hf. specialize (H1 f). rewrite Hf in H1. rewrite app_assoc. apply H'. rewrite H1. unfold rowAt.
      destruct (flat_map _ ts) as [|r rs]; [now rewrite app_nil_r|reflexivity].
    + destruct (IH d (fun s' H => Hh s' (or_intror H))) as (d' & -> & H'). exists d'. split; [reflexivity|]. exact H'.
Qed.

(** ** setting the traces up *)
(** the points of a rank: block by block, in the order of the point file *)
Definition pointsHere (name : string -> pt3 -> string) (rows : list ((Z * (Z * Z * Z)) * string)) (mb : list tblk) : list tpoint :=
  flat_map (fun b => flat_map (fun r : (Z * (Z * Z * Z)) * string => let '((n, (i, j, k)), tag) := r in
    if (n =? tb_n b)%Z then [mkTp (name tag (tb_xc b (i + tb_ng b)%Z (j + tb_ng b)%Z (k + tb_ng b)%Z)) n (i + tb_ng b)%Z (j + tb_ng b)%Z (k + tb_ng b)%Z] else []) rows) mb.
(** a row names an interior cell of its block *)
Definition okRow (b : tblk) (r : (Z * (Z * Z * Z)) * string) : Prop :=
  let '((n, (i, j, k)), tag) := r in n = tb_n b -> within (tb_dims b) (i + tb_ng b) (j + tb_ng b) (k + tb_ng b) = true.
(** what start-up leaves of a file: one already there is kept, a new one for a trace point holds only its titles *)
Definition startsAs (sp : list string) (d d' : files) (ts : list tpoint) : Prop := forall f,
  d' f = match d f with Some l => Some l | None => if existsb (fun t => String.eqb f (tp_file t)) ts then Some [Titles (titles sp)] else None end.

Lemma startsAs_snoc sp d d1 ts t : startsAs sp d d1 ts ->
  startsAs sp d (match d1 (tp_file t) with Some _ => d1 | None => fun g => if String.eqb g (tp_file t) then Some [Titles (titles sp)] else d1 g end) (ts ++ [t]).
Proof.
  intros H f. rewrite existsb_app. cbn [existsb]. rewrite orb_false_r. destruct (d1 (tp_file t)) eqn:E.
  - rewrite H. destruct (d f) eqn:Ed; [reflexivity|]. destruct (String.eqb_spec f (tp_file t)) as [->|Hn]; [|now rewrite orb_false_r].
    rewrite H, Ed in E. destruct (existsb _ ts); [reflexivity|discriminate].
  - destruct (String.eqb_spec f (tp_file t)) as [->|Hn].
    + rewrite H in E. destruct (d (tp_file t)); [discriminate|]. rewrite orb_true_r. reflexivity.
    + rewrite H, orb_false_r. reflexivity.
Qed.

Theorem C122_startup : forall name sp rows mb d, (forall b, In b mb -> tb_species b = sp) -> (forall b r, In b mb -> In r rows -> okRow b r) ->
  exists d', initTraces name rows mb d = Some (pointsHere name rows mb, d') /\ startsAs sp d d' (pointsHere name rows mb).
Proof.
  intros name sp rows mb d Hsp Hok. unfold initTraces.
  assert (B : forall b, tb_species b = sp -> forall rows, (forall r, In r rows -> okRow b r) -> forall ts d1, startsAs sp d d1 ts ->
    exists d', foldM (addPoint name b) rows (ts, d1) = Some (ts ++ pointsHere name rows [b], d') /\ startsAs sp d d' (ts ++ pointsHere name rows [b])).
  { clear. intros b Hb. induction rows as [|r rows IH]; intros Hr ts d1 H1; cbn [foldM].
    - exists d1. unfold pointsHere. cbn [flat_map app]. rewrite app_nil_r. auto.
    - destruct r as [[n [[i j] k]] tag]. pose proof (Hr _ (or_introl eq_refl)) as H0. cbn [okRow] in H0. unfold addPoint at 1.
      destruct (Z.eqb_spec n (tb_n b)) as [E|E].
      + rewrite (H0 E). cbn [fst snd]. set (t := mkTp _ _ _ _ _). pose proof (startsAs_snoc sp d d1 ts t H1) as Hs. cbn [tp_file t] in Hs. rewrite Hb.
        destruct (IH (fun r H => Hr r (or_intror H)) _ _ Hs) as (d' & E' & S'). exists d'. rewrite <- app_assoc in E', S'.
        replace (pointsHere name ((n, (i, j, k), tag) :: rows) [b]) with ([t] ++ pointsHere name rows [b]).
        2:{ unfold pointsHere. cbn [flat_map]. rewrite !app_nil_r. rewrite (proj2 (Z.eqb_eq _ _) E). unfold t. rewrite E. reflexivity. }
        split; assumption.
      + destruct (IH (fun r H => Hr r (or_intror H)) _ _ H1) as (d' & E' & S'). exists d'.
        replace (pointsHere name ((n, (i, j, k), tag) :: rows) [b]) with (pointsHere name rows [b]); [split; assumption|].
        unfold pointsHere. cbn [flat_map]. rewrite !app_nil_r. rewrite (proj2 (Z.eqb_neq _ _) E). reflexivity. }
  assert (M : forall mb, (forall b, In b mb -> tb_species b = sp) -> (forall b r, In b mb -> In r rows -> okRow b r) -> forall ts d1, startsAs sp d d1 ts ->
    exists d', foldM (fun st b => foldM (addPoint name b) rows st) mb (ts, d1) = Some (ts ++ pointsHere name rows mb, d') /\ startsAs sp d d' (ts ++ pointsHere name rows mb)).
  { clear Hsp Hok mb. induction mb as [|b mb IH]; intros Hsp Hok ts d1 H1; cbn [foldM].
    - exists d1. unfold pointsHere. cbn [flat_map]. rewrite app_nil_r. auto.
    - destruct (B b (Hsp b (or_introl eq_refl)) rows (fun r => Hok b r (or_introl eq_refl)) ts d1 H1) as (d2 & -> & S2).
      destruct (IH (fun b H => Hsp b (or_intror H)) (fun b r H => Hok b r (or_intror H)) _ _ S2) as (d' & E' & S'). exists d'. rewrite <- app_assoc in E', S'.
      replace (pointsHere name rows (b :: mb)) with (pointsHere name rows [b] ++ pointsHere name rows mb); [split; assumption|].
      unfold pointsHere. cbn [flat_map]. now rewrite app_nil_r. }
  apply (M mb Hsp Hok [] d). intros f. cbn [existsb]. destruct (d f); reflexivity.
Qed.

(** the title line has a title for the time and for each of the 5 + (ns - 1) primitive variables *)
Theorem C122_columns : forall sp q tme, (1 <= List.length sp)%nat -> List.length q = (5 + (List.length sp - 1))%nat -> List.length (titles sp) = List.length (tme :: q : list R).
Proof.
  intros sp q tme H1 Hq. unfold titles. rewrite app_length. cbn [List.length]. rewrite Hq. destruct (Nat.ltb_spec 1 (List.length sp)).
  - rewrite app_length, !firstn_length, skipn_length. lia.
  - cbn [List.length]. lia.
Qed.
(** and the species titles are all the species but the last *)
Theorem C122_species_titles : forall sp s, (1 <= List.length sp)%nat -> skipn 6 (titles (sp ++ [s])) = sp.
Proof.
  intros sp s H. unfold titles. cbn [app skipn]. rewrite app_length. cbn [List.length]. destruct (Nat.ltb_spec 1 (List.length sp + 1)); [|lia].
  replace (List.length sp + 1 - 2)%nat with (List.length sp - 1)%nat by lia. rewrite firstn_app, skipn_app.
  replace (List.length sp - 1 - List.length sp)%nat with 0%nat by lia. cbn [firstn skipn]. rewrite app_nil_r.
  assert (L : List.length (skipn (List.length sp - 1) sp) = 1%nat) by (rewrite skipn_length; lia).
  transitivity (firstn (List.length sp - 1) sp ++ skipn (List.length sp - 1) sp); [f_equal|apply firstn_skipn].
  destruct (skipn (List.length sp - 1) sp) as [|a [|b l]]; cbn [List.length] in L; try lia. reflexivity.
Qed.

(** asking for traces in the input file stops the run at start-up *)
Theorem C122_trace_refuted : startTrace true = None /\ startTrace false = Some false.
Proof. split; reflexivity. Qed.

(** on a rank whose blocks are not numbered from zero (any but the first), a due trace raises IndexError *)
Theorem C122_parallel_refuted : forall niter (t : tpoint) ts mb nrt tme d, niter <> 0%Z -> (nrt mod niter = 0)%Z -> (Z.of_nat (List.length mb) <= tp_blk t)%Z ->
  callTraces niter (t :: ts) mb nrt tme d = None.
Proof.
  intros niter t ts mb nrt tme d Hn Hd Hb. unfold callTraces. destruct (Z.eqb_spec niter 0); [contradiction|]. rewrite Hd, Z.eqb_refl. cbn [foldM].
  unfold writeRow at 1, getBlk. destruct (Z.ltb_spec (tp_blk t) 0); [lia|].
  replace (nth_error mb (Z.to_nat (tp_blk t))) with (@None tblk); [reflexivity|]. symmetry. apply nth_error_None. lia.
Qed.
(** ... for instance with one block per rank, on every rank but the first: its point was set up without complaint *)
Definition exTb (n : Z) : tblk := mkTb n 1 (3, 3, 3)%Z (fun _ _ _ => (0, 0, 0)) (fun _ _ _ => [1; 2; 3; 4; 5]) ["Air"%string].
Example C122_parallel_nonvacuous : exists d', initTraces (fun t _ => t) [((1, (0, 0, 0))%Z, "p"%string)] [exTb 1] (fun _ => None) = Some ([mkTp "p" 1 1 1 1], d') /\
  callTraces 1 [mkTp "p" 1 1 1 1] [exTb 1] 1 (1/10) d' = None.
Proof.
  destruct (C122_startup (fun t _ => t) ["Air"%string] [((1, (0, 0, 0))%Z, "p"%string)] [exTb 1] (fun _ => None)) as (d' & E & _).
  - intros b [<-|[]]. reflexivity.
  - intros b r [<-|[]] [<-|[]]. intros _. reflexivity.
  - exists d'. split; [exact E|]. apply C122_parallel_refuted; [lia|reflexivity|cbn; lia].
Qed.
(** a serial run of three steps with every second one due *)
Example C122_nonvacuous : exists d', runTraces 2 [mkTp "p" 0 1 1 1] [mkTs 1 (1/10) [exTb 0]; mkTs 2 (2/10) [exTb 0]; mkTs 3 (3/10) [exTb 0]; mkTs 4 (4/10) [exTb 0]]
    (fun f => if String.eqb f "p" then Some [Titles (titles ["Air"%string])] else None) = Some d' /\
  d' "p"%string = Some [Titles (titles ["Air"%string]); Row [2/10; 1; 2; 3; 4; 5]; Row [4/10; 1; 2; 3; 4; 5]].
Proof.
  destruct (C122_rows 2 [mkTp "p" 0 1 1 1] [mkTs 1 (1/10) [exTb 0]; mkTs 2 (2/10) [exTb 0]; mkTs 3 (3/10) [exTb 0]; mkTs 4 (4/10) [exTb 0]]
    (fun f => if String.eqb f "p" then Some [Titles (titles ["Air"%string])] else None)) as (d' & E & H); [lia| |].
  - intros s Hs. assert (Em : ts_mb s = [exTb 0]) by (destruct Hs as [<-|[<-|[<-|[<-|[]]]]]; reflexivity). rewrite Em. split.
    + intros [|[|i]] b Hb; cbn in Hb; try discriminate. injection Hb as <-. reflexivity.
    + intros t [<-|[]]. cbn. lia.
  - exists d'. split; [exact E|]. rewrite (H "p"%string _ eq_refl). reflexivity.
Qed.
(** two points whose cells share a tag and agree to six decimals write to one file *)
Theorem C122_shared_file : forall niter t1 t2 s f, ts_nrt s mod niter = 0%Z -> tp_file t1 = f -> tp_file t2 = f -> forall b1 b2, blockOf (ts_mb s) (tp_blk t1) = Some b1 -> blockOf (ts_mb s) (tp_blk t2) = Some b2 ->
  rowsAt niter f [t1; t2] s = [rowAt s t1 b1; rowAt s t2 b2].
Proof. intros niter t1 t2 s f Hd E1 E2 b1 b2 H1 H2. unfold rowsAt. rewrite Hd. cbn [Z.eqb flat_map]. rewrite E1, E2, String.eqb_refl, H1, H2. reflexivity. Qed.

Print Assumptions C120_line.
Print Assumptions C120_plane_partial.
Print Assumptions C120_plane_refuted.
Print Assumptions C120_tags.
Print Assumptions C121_homes_partial.
Print Assumptions C121_lookup_refuted.
Print Assumptions C122_rows.
Print Assumptions C122_startup.
Print Assumptions C122_parallel_refuted.
