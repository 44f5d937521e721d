(** Lemmas for C137, third part: centres of pieces. *)
From Coq Require Import ZArith String Ascii List Bool Lia Reals Lra.
From Verif Require Import M_Topology S_Topology L_Topology P_Topology M_Cut S_Cut L_Cut L_Cut2 P_Cut P_CutPath M_CutGrid S_CutGrid L_CutGrid1 L_CutGrid2.
Import ListNotations.
Open Scope Z_scope.

Definition minus (p q : R * R * R) : R * R * R :=
  let '(a, b, c) := p in let '(x, y, z) := q in ((a - x)%R, (b - y)%R, (c - z)%R).

Lemma isNear_close p q : isNear p q = true <-> close p q.
Proof.
  unfold isNear, close, distance. destruct p as [[a b] c], q as [[x y] z].
  set (d := ((a - x) * (a - x) + (b - y) * (b - y) + (c - z) * (c - z))%R). set (e := (1 / 1000000000)%R).
  assert (D : (0 <= d)%R).
  { unfold d. pose proof (Rle_0_sqr (a - x)). pose proof (Rle_0_sqr (b - y)). pose proof (Rle_0_sqr (c - z)). unfold Rsqr in *. lra. }
  assert (E : (0 < e)%R) by (unfold e; lra).
  assert (Q : (sqrt d < e <-> d < e * e)%R).
  { split; intros H.
    - rewrite <- (sqrt_sqrt d D). pose proof (sqrt_pos d). apply Rmult_le_0_lt_compat; assumption.
    - rewrite <- (sqrt_square e) by lra. apply sqrt_lt_1; [exact D| |exact H]. apply Rmult_le_pos; lra. }
  destruct (Rlt_dec (sqrt d) e); split; intros H; [tauto|reflexivity|discriminate|exfalso; tauto].
Qed.

Definition mid (p q : R * R * R) : R * R * R :=
  let '(a, b, c) := p in let '(x, y, z) := q in (((a + x) / 2)%R, ((b + y) / 2)%R, ((c + z) / 2)%R).

Lemma close_mid p q u v : close p q -> close u v -> close (mid p u) (mid q v).
Proof.
  unfold close, mid. destruct p as [[p1 p2] p3], q as [[q1 q2] q3], u as [[u1 u2] u3], v as [[v1 v2] v3].
  set (e := ((1 / 1000000000) * (1 / 1000000000))%R). clearbody e. intros H1 H2.
  set (a := (p1 - q1)%R) in *. set (b := (p2 - q2)%R) in *. set (c := (p3 - q3)%R) in *.
  set (x := (u1 - v1)%R) in *. set (y := (u2 - v2)%R) in *. set (z := (u3 - v3)%R) in *.
  replace ((p1 + u1) / 2 - (q1 + v1) / 2)%R with ((a + x) / 2)%R by (unfold a, x; field).
  replace ((p2 + u2) / 2 - (q2 + v2) / 2)%R with ((b + y) / 2)%R by (unfold b, y; field).
  replace ((p3 + u3) / 2 - (q3 + v3) / 2)%R with ((c + z) / 2)%R by (unfold c, z; field).
  clearbody a b c x y z.
  assert (G : forall s t : R, ((s + t) / 2 * ((s + t) / 2) <= (s * s + t * t) / 2)%R).
  { intros s t. pose proof (Rle_0_sqr (s - t)). unfold Rsqr in *. lra. }
  pose proof (G a x). pose proof (G b y). pose proof (G c z). lra.
Qed.

Definition cube (f : bool -> bool -> bool -> R * R * R) : R * R * R :=
  mid (mid (mid (f false false false) (f false false true)) (mid (f false true false) (f false true true)))
      (mid (mid (f true false false) (f true false true)) (mid (f true true false) (f true true true))).

Lemma close_cube f g : (forall x y z, close (f x y z) (g x y z)) -> close (cube f) (cube g).
Proof. intros H. unfold cube. repeat apply close_mid; apply H. Qed.
Lemma cube_ext f g : (forall x y z, f x y z = g x y z) -> cube f = cube g.
Proof. intros H. unfold cube. now rewrite !H. Qed.

Definition choice (x y z : bool) : axis -> bool := fun c => match c with I => x | J => y | S_Topology.K => z end.
Lemma pieceCentre_cube b a i h s : pieceCentre b a i h s = cube (fun x y z => node b (pieceCorner b a i h s (choice x y z))).
Proof.
  unfold pieceCentre, cube, choice.
  set (F := fun e1 e2 e3 : bool => node b (pieceCorner b a i h s (fun c => match c with I => e1 | J => e2 | S_Topology.K => e3 end))).
  change (let '(x, y, z) := vecAdd (vecAdd (vecAdd (F false false false) (F false false true)) (vecAdd (F false true false) (F false true true)))
           (vecAdd (vecAdd (F true false false) (F true false true)) (vecAdd (F true true false) (F true true true))) in ((x / 8)%R, (y / 8)%R, (z / 8)%R)
   = mid (mid (mid (F false false false) (F false false true)) (mid (F false true false) (F false true true)))
      (mid (mid (F true false false) (F true false true)) (mid (F true true false) (F true true true)))).
  clearbody F.
  destruct (F false false false) as [[? ?] ?], (F false false true) as [[? ?] ?], (F false true false) as [[? ?] ?], (F false true true) as [[? ?] ?],
   (F true false false) as [[? ?] ?], (F true false true) as [[? ?] ?], (F true true false) as [[? ?] ?], (F true true true) as [[? ?] ?].
  cbn [vecAdd mid]. f_equal; [f_equal|]; field.
Qed.

(** The corners of a side of a block, and its centre. *)
Definition corner (b : gblock) (s : saxis) (e : axis -> bool) : axis -> Z :=
  fun c => if axis_eqb c (fst s) then (if snd s then points b c - 1 else 0) else if e c then points b c - 1 else 0.

Lemma centre_cube b s : centre b (faceNo s) = cube (fun x y z => node b (corner b s (choice x y z))).
Proof.
  destruct s as [[] []];
  cbv [centre cube node corner points choice cornerIndices meanOf fold_left mid faceNo fst snd axis_eqb Z.eqb Pos.eqb];
  destruct (gshape b) as [[ni nj] nk]; cbv beta iota;
  apply f_equal2; [apply f_equal2| |apply f_equal2| |apply f_equal2| |apply f_equal2| |apply f_equal2| |apply f_equal2|]; field.
Qed.

Lemma node_ext b p q : (forall c, p c = q c) -> node b p = node b q.
Proof. intros H. unfold node. now rewrite !H. Qed.

(** Renaming the choices by a signed permutation does not change the centre. *)
Definition moveChoice (o : orient) (e : axis -> bool) (e' : axis -> bool) : Prop :=
  forall c, e' (fst (o c)) = if snd (o c) then e c else negb (e c).

Lemma cube_perm o (F : (axis -> bool) -> R * R * R) (G : bool -> bool -> bool -> R * R * R) : legal o ->
  (forall e e', (forall c, e c = e' c) -> F e = F e') ->
  (forall x y z e', moveChoice o (choice x y z) e' -> G x y z = F e') ->
  cube G = cube (fun x y z => F (choice x y z)).
Proof.
  intros L X H.
  assert (E : forall x y z x' y' z', moveChoice o (choice x y z) (choice x' y' z') -> G x y z = F (choice x' y' z')) by (intros; apply H; assumption).
  set (F' := fun x y z => F (choice x y z)) in *.
  assert (E' : forall x y z x' y' z', moveChoice o (choice x y z) (choice x' y' z') -> G x y z = F' x' y' z') by exact E.
  clearbody F'. clear E H X.
  assert (LI := L I J). assert (LJ := L I S_Topology.K). assert (LK := L J S_Topology.K).
  unfold moveChoice in E'. unfold cube.
  destruct (o I) as [a1 s1] eqn:O1, (o J) as [a2 s2] eqn:O2, (o S_Topology.K) as [a3 s3] eqn:O3. cbn [fst] in LI, LJ, LK.
  assert (SUM : forall f : bool -> bool -> bool -> R * R * R,
     mid (mid (mid (f false false false) (f false false true)) (mid (f false true false) (f false true true)))
      (mid (mid (f true false false) (f true false true)) (mid (f true true false) (f true true true))) = cube f) by reflexivity.
  assert (Q : forall x y z x' y' z', choice x' y' z' a1 = (if s1 then x else negb x) -> choice x' y' z' a2 = (if s2 then y else negb y) ->
     choice x' y' z' a3 = (if s3 then z else negb z) -> G x y z = F' x' y' z').
  { intros x y z x' y' z' H1 H2 H3. apply E'. intros []; [rewrite O1|rewrite O2|rewrite O3]; cbn [fst snd choice]; assumption. }
  clear E' O1 O2 O3 L SUM.
  destruct a1, a2, a3; try (exfalso; discriminate (LI eq_refl)); try (exfalso; discriminate (LJ eq_refl)); try (exfalso; discriminate (LK eq_refl));
  destruct s1, s2, s3; cbn [choice negb] in Q;
  repeat match goal with |- context [G ?x ?y ?z] =>
     let q := fresh in
     first [ assert (q : G x y z = F' false false false) by (apply Q; reflexivity)
           | assert (q : G x y z = F' false false true) by (apply Q; reflexivity)
           | assert (q : G x y z = F' false true false) by (apply Q; reflexivity)
           | assert (q : G x y z = F' false true true) by (apply Q; reflexivity)
           | assert (q : G x y z = F' true false false) by (apply Q; reflexivity)
           | assert (q : G x y z = F' true false true) by (apply Q; reflexivity)
           | assert (q : G x y z = F' true true false) by (apply Q; reflexivity)
           | assert (q : G x y z = F' true true true) by (apply Q; reflexivity) ]; rewrite q; clear q end;
  clear; destruct (F' false false false) as [[? ?] ?], (F' false false true) as [[? ?] ?], (F' false true false) as [[? ?] ?], (F' false true true) as [[? ?] ?],
   (F' true false false) as [[? ?] ?], (F' true false true) as [[? ?] ?], (F' true true false) as [[? ?] ?], (F' true true true) as [[? ?] ?];
   cbn [mid]; (apply f_equal2; [apply f_equal2|]; field).
Qed.

(** The translation of a face is one vector. *)
Lemma translated_vec g p q : translated g p q -> exists t, (forall u v, translated g u v <-> v = vecAdd u t) /\
  (bcType (topo g) = "b0"%string \/ isPeriodic (bcType (topo g)) = true) /\ forall u, moved g u = Some (vecAdd u t).
Proof.
  unfold translated, moved. destruct p as [[x y] z]. destruct (String.eqb_spec (bcType (topo g)) "b0") as [E|Ne].
  - intros _. exists (0%R, 0%R, 0%R). rewrite E. split; [|split; [auto|]].
    + intros [[a b] c] v. cbn [vecAdd]. rewrite !Rplus_0_r. tauto.
    + intros [[a b] c]. cbn. now rewrite !Rplus_0_r.
  - intros (a & b & c & s & PA & SP & U & [[T _]|[T _]]).
    + exists ((a * s)%R, (b * s)%R, (c * s)%R). rewrite T. split; [|split; [auto|]].
      * intros [[u1 u2] u3] v. cbn [vecAdd]. split.
        -- intros (a' & b' & c' & s' & PA' & SP' & _ & [[_ ->]|[X _]]); [|discriminate]. rewrite PA in PA'. rewrite SP in SP'. congruence.
        -- intros ->. exists a, b, c, s. auto 8.
      * intros [[u1 u2] u3]. rewrite PA, SP. reflexivity.
    + exists ((- (a * s))%R, (- (b * s))%R, (- (c * s))%R). rewrite T. split; [|split; [auto|]].
      * intros [[u1 u2] u3] v. cbn [vecAdd]. split.
        -- intros (a' & b' & c' & s' & PA' & SP' & _ & [[X _]|[_ ->]]); [discriminate|]. rewrite PA in PA'. rewrite SP in SP'.
           injection PA' as <- <- <-. injection SP' as <-. reflexivity.
        -- intros ->. exists a, b, c, s. split; [auto|]. split; [auto|]. split; [auto|]. right. split; reflexivity.
      * intros [[u1 u2] u3]. rewrite PA, SP. reflexivity.
Qed.

Lemma translated_same g g' p q : sameCondition g' g -> translated g p q -> translated g' p q.
Proof.
  intros (_ & T & _ & _ & S) H. unfold translated in *. destruct p as [[x y] z]. rewrite T.
  destruct (String.eqb (bcType (topo g)) "b0"); [exact H|]. destruct H as (a & b & c & s & PA & SP & U & D).
  assert (P : isPeriodic (bcType (topo g')) = true) by (rewrite T; destruct D as [[-> _]|[-> _]]; reflexivity).
  destruct (S P) as [S1 S2]. exists a, b, c, s. split; [congruence|]. split; [congruence|]. auto.
Qed.

Lemma cube_vecAdd f t : cube (fun x y z => vecAdd (f x y z) t) = vecAdd (cube f) t.
Proof.
  unfold cube. destruct (f false false false) as [[? ?] ?], (f false false true) as [[? ?] ?], (f false true false) as [[? ?] ?], (f false true true) as [[? ?] ?],
   (f true false false) as [[? ?] ?], (f true false true) as [[? ?] ?], (f true true false) as [[? ?] ?], (f true true true) as [[? ?] ?], t as [[? ?] ?].
  cbn [vecAdd mid]. f_equal; [f_equal|]; field.
Qed.
