(** C14-C18: grid creation and halo generation. *)
From Coq Require Import Reals ZArith String List Bool Lia Lra Permutation.
From Verif Require Import M_Topology S_Topology M_Halo S_Halo L_Halo3 M_Mpi M_Grid S_Grid L_Grid1 L_Grid2 L_Grid3 L_Grid4.
Import ListNotations.
Open Scope Z_scope.

(** Freshly made multi-block object: as many blocks as the decomposition asks for, each with faces 1..6. *)
Definition freshFor (m : pt) (mb : list gblock) : Prop :=
  (forall a, 0 < co m a) /\ co m I * co m J * co m K = Z.of_nat (length mb) /\ forall b, In b mb -> sixFaces b.

(** C14: the neighbour of every face is the geometrically next block (wrapping only if periodic). *)
Theorem C14_neighbours : forall mb o l m d per, freshFor m mb ->
  exists mb', multiBlockCube mb o l m d per = Some mb' /\ length mb' = length mb /\
   forall c, inLattice m c -> exists b', nth_error mb' (Z.to_nat (number m c)) = Some b' /\
     gb_num b' = number m c /\ gb_dims b' = d /\ sixFaces b' /\
     forall f s, In f (gb_faces b') -> outward (nface (gf_face f)) s ->
       neighbor (gf_face f) = option_map (number m) (nextBlock m per c s) /\
       (neighbor (gf_face f) <> None -> orientation (gf_face f) = Some "123"%string) /\
       (neighbor (gf_face f) = None -> bcType (gf_face f) = "adiabaticNoSlipWall"%string).
Proof. intros mb o l m d per (A & B & C). now apply cube_neighbours. Qed.

(** ... symmetric: going back through the opposite face returns to the block *)
Theorem C14_symmetric : forall m per c c' s, inLattice m c -> nextBlock m per c s = Some c' ->
  inLattice m c' /\ nextBlock m per c' (fst s, negb (snd s)) = Some c.
Proof.
  intros m per c c' [a u] H N. split; [eapply nextBlock_in; eauto|].
  exact (nextBlock_sym m per c (a, u) c' H N).
Qed.

(** ... and the result satisfies the premises of the halo-exchange theorems (C06-C13), however its
    blocks are distributed over ranks. *)
Theorem C14_conforming : forall mb o l m d per ng w mb', freshFor m mb -> 0 < ng -> (forall a, 0 < dim d a) ->
  multiBlockCube mb o l m d per = Some mb' -> Permutation (blocksOf w) (map toSBlock mb') -> conforming ng w.
Proof. intros mb o l m d per ng w mb' (A & B & C) Hn Hd E P. eapply cube_conforming; eauto. Qed.

(** C15: node p of block c is node c*(n-1)+p of one uniform grid over the whole box. *)
Theorem C15_global_grid : forall mb o l m d per, freshFor m mb -> (forall a, 2 <= dim d a) ->
  exists mb', multiBlockCube mb o l m d per = Some mb' /\
  forall c p, inLattice m c -> (forall a, 0 <= co p a < dim d a) ->
  exists b', nth_error mb' (Z.to_nat (number m c)) = Some b' /\
  coords b' p =
  (uniformNode (fst (fst o)) (fst (fst l)) (co m I * (dim d I - 1)) (co c I * (dim d I - 1) + co p I),
   uniformNode (snd (fst o)) (snd (fst l)) (co m J * (dim d J - 1)) (co c J * (dim d J - 1) + co p J),
   uniformNode (snd o) (snd l) (co m K * (dim d K - 1)) (co c K * (dim d K - 1) + co p K)).
Proof.
  intros mb o l m d per (A & B & C) Hd. destruct (cube_result mb o l m d per A B C) as (mb' & E & L & H & _).
  exists mb'. split; auto. intros [[i j] k] p Hc Hp. destruct (H (i,j,k) Hc) as (b & _ & _ & E').
  eexists. split; [exact E'|]. now apply cube_coords.
Qed.

(** ... so the last plane of a block coincides with the first plane of the next one *)
Theorem C15_shared_plane : forall mb o l m d per mb' c c' a p q b b', freshFor m mb -> (forall a, 2 <= dim d a) ->
  multiBlockCube mb o l m d per = Some mb' -> inLattice m c -> inLattice m c' ->
  c' = with_co c a (co c a + 1) ->
  (forall x, 0 <= co p x < dim d x) -> co p a = dim d a - 1 -> q = with_co p a 0 ->
  nth_error mb' (Z.to_nat (number m c)) = Some b -> nth_error mb' (Z.to_nat (number m c')) = Some b' ->
  coords b p = coords b' q.
Proof.
  intros mb o l m d per mb' c c' a p q b b' F Hd E Hc Hc' Ec Hp Ep Eq Eb Eb'.
  destruct (C15_global_grid mb o l m d per F Hd) as (mb2 & E2 & H). assert (mb2 = mb') by congruence. subst mb2.
  assert (Hq: forall x, 0 <= co q x < dim d x).
  { intros x. subst q. specialize (Hp x). specialize (Hd x). destruct a, x, p as [[p0 p1] p2]; cbn in *; lia. }
  destruct (H c p Hc Hp) as (b1 & E1 & C1). destruct (H c' q Hc' Hq) as (b2 & E2' & C2).
  assert (b1 = b) by congruence. assert (b2 = b') by congruence. subst b1 b2 c' q. rewrite C1, C2.
  destruct a, c as [[c0 c1] c2], p as [[p0 p1] p2]; cbn [co fst snd with_co dim] in *; rewrite Ep;
    repeat match goal with |- (_, _) = (_, _) => f_equal end; try reflexivity; f_equal; ring.
Qed.

(** ... and the corners of the box are reached. *)
Theorem C15_box : forall o l N, 0 < N -> uniformNode o l N 0 = o /\ uniformNode o l N N = (o + l)%R.
Proof.
  intros o l N H. unfold uniformNode. assert (IZR N <> 0)%R by (apply not_0_IZR; lia). split; field; auto.
Qed.

Definition lengthOf (l : R * R * R) (a : axis) : R := match a with I => fst (fst l) | J => snd (fst l) | K => snd l end.

(** C16: the property would be: for every periodic face with outward axis a the span is the domain
    length.  It fails as soon as there are two blocks in the periodic direction. *)
Theorem C16_span_refuted : forall mb o l m d per mb' c b' f a s, freshFor m mb ->
  multiBlockCube mb o l m d per = Some mb' -> inLattice m c -> nth_error mb' (Z.to_nat (number m c)) = Some b' ->
  In f (gb_faces b') -> isPeriodicTrans (bcType (gf_face f)) = true -> outward (nface (gf_face f)) (a, s) ->
  2 <= co m a -> (lengthOf l a <> 0)%R -> gf_span f <> Some (lengthOf l a).
Proof.
  intros mb o l m d per mb' c b' f a s (A & B & C) E Hc Eb Hf Hp O Hm Hl.
  destruct (cube_result mb o l m d per A B C) as (mb2 & E2 & _ & H & _). assert (mb2 = mb') by congruence. subst mb2.
  destruct c as [[i j] k]. destruct (H _ Hc) as (b & _ & _ & E'). rewrite Eb in E'. inversion E'. subst b'.
  destruct (cube_span o l m d per _ _ _ b f a A Hc Hf Hp s O) as [Sp _]. rewrite Sp.
  assert (M: (2 <= IZR (co m a))%R) by (apply IZR_le; lia).
  intros Q. injection Q as Q. apply Hl.
  assert (Q': (lengthOf l a / IZR (co m a) = lengthOf l a)%R) by (destruct a; exact Q).
  assert ((lengthOf l a = lengthOf l a * IZR (co m a))%R) by (rewrite <- Q' at 2; field; lra). nra.
Qed.

(** with a single block in that direction it holds *)
Theorem C16_span_partial : forall mb o l m d per mb' c b' f a s, freshFor m mb ->
  multiBlockCube mb o l m d per = Some mb' -> inLattice m c -> nth_error mb' (Z.to_nat (number m c)) = Some b' ->
  In f (gb_faces b') -> isPeriodicTrans (bcType (gf_face f)) = true -> outward (nface (gf_face f)) (a, s) ->
  co m a = 1 -> gf_span f = Some (lengthOf l a) /\
    gf_axis f = Some (match a with I => (1,0,0) | J => (0,1,0) | K => (0,0,1) end)%R.
Proof.
  intros mb o l m d per mb' c b' f a s (A & B & C) E Hc Eb Hf Hp O Hm.
  destruct (cube_result mb o l m d per A B C) as (mb2 & E2 & _ & H & _). assert (mb2 = mb') by congruence. subst mb2.
  destruct c as [[i j] k]. destruct (H _ Hc) as (b & _ & _ & E'). rewrite Eb in E'. inversion E'. subst b'.
  destruct (cube_span o l m d per _ _ _ b f a A Hc Hf Hp s O) as [Sp Ax]. rewrite Sp, Ax. split; auto.
  f_equal. destruct a; rewrite Hm; unfold lengthOf; field.
Qed.

Open Scope R_scope.
(** C17: with two or more blocks along the axis multiBlockAnnulus raises, for every axis p2 and
    radius vector p3 (orthogonal, non-zero) whose axial block length is not tiny. *)
Theorem C17_axial_refuted : forall nb p2 p3 sweep th m d, (2 <= co m I)%Z -> (0 < co m J)%Z -> (0 < co m K)%Z ->
  dot p2 p2 <> 0 -> dot p3 p3 <> 0 -> dot p2 p3 = 0 ->
  / 10000000 < 2 * (dot p2 p2 / (IZR (co m I) * IZR (co m I))) ->
  multiBlockAnnulus nb p2 p3 sweep th m d = None.
Proof. exact annulus_fails. Qed.

(** With one block along the axis it succeeds, and node (a,b,c) of block (0,j,k) is the node of one
    global annulus: axial fraction a/(ni-1), radial fraction and angular fraction uniform over all
    blocks. *)
Theorem C17_geometry_partial : forall nb p2 p3 sweep th m d, co m I = 1%Z -> (0 < co m J)%Z -> (0 < co m K)%Z ->
  (co m I * co m J * co m K)%Z = nb ->
  dot p2 p2 <> 0 -> dot p3 p3 <> 0 -> dot p2 p3 = 0 -> 0 <= sweep <= 360 -> 0 <= th ->
  (2 <= ni d)%Z -> (2 <= nj d)%Z -> (2 <= nk d)%Z ->
  exists bs, multiBlockAnnulus nb p2 p3 sweep th m d = Some bs /\
  forall j k, (0 <= j < co m J)%Z -> (0 <= k < co m K)%Z ->
  exists f, In (number m (0, j, k)%Z, f) bs /\
   forall a b c, (0 <= c)%Z -> f a b c = annulusNode p2 p3 sweep th (IZR a / IZR (ni d - 1))
       (IZR (j * (nj d - 1) + b) / IZR (co m J * (nj d - 1))) (IZR (k * (nk d - 1) + c) / IZR (co m K * (nk d - 1))).
Proof.
  intros nb p2 p3 sweep th m d M0 M1 M2 Enb N2 N3 O Sw Th D1 D2 D3. unfold multiBlockAnnulus.
  destruct m as [[m0 m1] m2]. cbn [co fst snd] in *. subst m0 nb. rewrite Z.eqb_refl. cbn [negb].
  rewrite O, Rabs_R0, Rgtb_false by (left; apply Rinv_0_lt_compat; lra). rewrite (Rgtb_false 0), (Rgtb_false sweep) by lra. cbn [orb].
  destruct (sequence_some (fun c : Z * Z * Z => let '(i, j, k) := c in
      match annulusBlock p2 p3 sweep th (1%Z, m1, m2) d i j k with
      | Some f => Some (blkNumber (1%Z, m1, m2) i j k, f) | None => None end) (triples3 (1%Z, m1, m2))) as (r & E & P).
  - intros [[i j] k] H. apply triples3_in in H. pose proof (H I). pose proof (H J). pose proof (H K). cbn [co fst snd] in *.
    assert (i = 0)%Z by lia. subst i.
    destruct (annulusBlock_ok p2 p3 sweep th (1%Z, m1, m2) d j k) as (f & -> & _); cbn [fst snd]; auto. discriminate.
  - exists r. split; auto. intros j k Hj Hk.
    destruct (annulusBlock_ok p2 p3 sweep th (1%Z, m1, m2) d j k) as (f & Ef & Hf); cbn [fst snd]; auto.
    exists f. split; [|exact Hf]. apply (P (0, j, k)%Z).
    + apply triples3_in. intros []; cbn [co fst snd]; lia.
    + rewrite Ef. rewrite blkNumber_number. reflexivity.
Qed.

(** the annulus node really lies on the annulus: prescribed distance from, and height along, the axis *)
Theorem C17_on_annulus : forall p2 p3 sweep th fx fr ft,
  dot p2 p2 <> 0 -> dot p3 p3 <> 0 -> dot p2 p3 = 0 -> 0 <= th -> 0 <= fr ->
  let p := annulusNode p2 p3 sweep th fx fr ft in
  dot p2 p = fx * dot p2 p2 /\
  norm (vsub p (vscale fx p2)) = norm p3 + fr * th.
Proof.
  intros p2 p3 sweep th fx fr ft N2 N3 O Th Fr p. subst p. unfold annulusNode.
  set (n12 := vscale (/ norm p2) p2). pose proof (unit_of p2 N2) as U. fold n12 in U.
  pose proof (norm_pos p2 N2) as NP. pose proof (norm_pos p3 N3) as NP3.
  set (t := ft * sweep * PI / 180).
  assert (X: dot p2 (vscale (/ norm p3) p3) = 0) by (rewrite dot_scale_r, O; ring).
  split.
  - rewrite (unscale p2 N2) at 1. fold n12. rewrite dot_scale_l, dot_axis_rotate by auto.
    unfold n12. rewrite dot_scale_l, !dot_add_r, !dot_scale_r, O. field. lra.
  - rewrite !rotate_add, !rotate_scale.
    assert (E2: rotate n12 t p2 = p2). { rewrite (unscale p2 N2). fold n12. now rewrite rotate_scale, rotate_axis. }
    rewrite E2.
    replace (vsub (vadd (rotate n12 t p3) (vadd (vscale fx p2) (vscale (fr * th) (vscale (/ norm p3) (rotate n12 t p3))))) (vscale fx p2))
      with (vscale (1 + fr * th / norm p3) (rotate n12 t p3)).
    + rewrite norm_scale, norm_rotate; auto. field; lra.
      assert (0 <= fr * th / norm p3); [|lra]. unfold Rdiv. apply Rmult_le_pos; [nra|]. left. now apply Rinv_0_lt_compat.
    + unfold Rdiv. generalize (/ norm p3) (rotate n12 t p3). intros r v. clear. vd. veq; ring.
Qed.

(** C18 *)
Theorem C18_interior_untouched : forall d ng x i j k, (1 <= ng)%Z -> interiorNode d ng i j k ->
  generateHalo d ng x i j k = x i j k.
Proof. intros. now apply halo_interior. Qed.

(** a grid that is affine in the indices is continued by the same affine map into every halo node,
    including edge and corner halos, for every number of layers and every block of >= 2 nodes per
    direction (also blocks thinner than the halo) *)
Theorem C18_uniform_continuation : forall d ng x c0 ci cj ck, (1 <= ng)%Z ->
  (2 <= ni d)%Z -> (2 <= nj d)%Z -> (2 <= nk d)%Z ->
  (forall i j k, interiorNode d ng i j k -> x i j k = affine c0 ci cj ck i j k) ->
  forall i j k, nodeIn d ng i j k -> generateHalo d ng x i j k = affine c0 ci cj ck i j k.
Proof. intros d ng x c0 ci cj ck H1 H2 H3 H4 Hx i j k Hn. apply halo_affine; auto. intros []; cbn [size]; lia. Qed.

(** on every grid, the n-th face-halo node is the reflection of the n-th interior node about the face *)
Theorem C18_reflection_I_low : forall d ng x n j k, (1 <= ng)%Z -> (2 <= ni d)%Z -> (2 <= nj d)%Z -> (2 <= nk d)%Z ->
  (ng < ni d)%Z -> (ng < nj d)%Z -> (ng < nk d)%Z -> (1 <= n <= ng)%Z -> interiorNode d ng ng j k ->
  generateHalo d ng x (ng - n)%Z j k = 2 * x ng j k - x (ng + n)%Z j k.
Proof.
  intros d ng x n j k G A B C A' B' C' Hn Hi. destruct Hi as (_ & Hj & Hk).
  assert (Ha: ha d ng AI (ng - n, j, k)%Z = true) by (unfold ha, ga; cbn [getA fst snd]; apply halo_iff; lia).
  change (ap (generateHalo d ng x) (ng - n, j, k)%Z = 2 * x ng j k - x (ng + n)%Z j k).
  rewrite (halo_reflect d ng G) with (a := AI); auto.
  - unfold refl, facePlane, ga. cbn [getA fst snd sa]. destruct (Z.ltb_spec (ng - n) ng); [|lia]. unfold ap. cbn [fst snd].
    replace (2 * ng - (ng - n))%Z with (ng + n)%Z by lia. reflexivity.
  - intros []; cbn [size]; lia.
  - intros []; cbn [size]; lia.
  - intros []; unfold ga, total; cbn [getA fst snd size]; lia.
  - unfold hc. rewrite Ha. replace (ha d ng AJ (ng - n, j, k)%Z) with false; [|symmetry; unfold ha, ga; cbn [getA fst snd]; apply (halo_false d ng AJ); cbn [size]; lia].
    replace (ha d ng AK (ng - n, j, k)%Z) with false; [reflexivity|symmetry; unfold ha, ga; cbn [getA fst snd]; apply (halo_false d ng AK); cbn [size]; lia].
Qed.

(** the same for all six faces, in terms of the face plane F of the axis *)
Theorem C18_reflection : forall d ng x a p, (1 <= ng)%Z -> (forall b, 2 <= size d b)%Z -> (forall b, ng < size d b)%Z ->
  (forall b, 0 <= ga b p < total d ng b)%Z ->
  (forall b, b <> a -> ng <= ga b p < size d b + ng)%Z -> ~ (ng <= ga a p < size d a + ng)%Z ->
  let F := (if Z.ltb (ga a p) ng then ng else size d a + ng - 1)%Z in
  ap (generateHalo d ng x) p = 2 * ap x (sa a F p) - ap x (sa a (2 * F - ga a p)%Z p).
Proof.
  intros d ng x a p G A B Hin Ht Hh F.
  assert (Ha: ha d ng a p = true) by (unfold ha; apply halo_iff; lia).
  assert (Hf: forall b, b <> a -> ha d ng b p = false) by (intros b Hb; unfold ha; apply halo_false; auto).
  rewrite (halo_reflect d ng G A x a p); auto.
  unfold hc. destruct a; rewrite ?Ha, ?(Hf AI), ?(Hf AJ), ?(Hf AK) by discriminate; reflexivity.
Qed.

(** ** Non-vacuity *)
Definition gface0 (n : Z) : gface := mkGFace (mkFace n None "b0"%string None None) None None.
Definition gblock0 (n : Z) : gblock :=
  mkGBlock n (mkDims 0 0 0) (fun _ _ _ => 0) (fun _ _ _ => 0) (fun _ _ _ => 0) (map gface0 [1;2;3;4;5;6]%Z).
Definition six : list gblock := map gblock0 [0;1;2;3;4;5]%Z.
(** 3 x 2 x 1 blocks, periodic in i *)
Definition interiorNode_dec (i j k : Z) : {(2 <= i < 5 /\ 2 <= j < 5 /\ 2 <= k < 5)%Z} + {~ (2 <= i < 5 /\ 2 <= j < 5 /\ 2 <= k < 5)%Z}.
Proof. destruct (Z_le_dec 2 i), (Z_lt_dec i 5), (Z_le_dec 2 j), (Z_lt_dec j 5), (Z_le_dec 2 k), (Z_lt_dec k 5); (left; lia) || (right; lia). Defined.
Example C14_ex : freshFor (3,2,1)%Z six.
Proof. split; [intros []; cbn; lia|]. split; [reflexivity|]. intros b Hb. simpl in Hb. intuition; subst; reflexivity. Qed.
Example C14_ex_next : nextBlock (3,2,1)%Z (true,false,false) (2,1,0)%Z (I,true) = Some (0,1,0)%Z
  /\ nextBlock (3,2,1)%Z (true,false,false) (2,1,0)%Z (J,true) = None.
Proof. split; reflexivity. Qed.
(** the refuted premises are met: block 0 of the 3 x 2 x 1 cube has a periodic low-i face *)
Example C16_ex : exists mb' b' f, multiBlockCube six (0,0,0) (1,1,1) (3,2,1)%Z (mkDims 4 4 4) (true,false,false) = Some mb' /\
  nth_error mb' (Z.to_nat (number (3,2,1)%Z (0,0,0)%Z)) = Some b' /\ In f (gb_faces b') /\
  isPeriodicTrans (bcType (gf_face f)) = true /\ outward (nface (gf_face f)) (I,false) /\ gf_span f <> Some 1.
Proof.
  destruct (cube_result six (0,0,0) (1,1,1) (3,2,1)%Z (mkDims 4 4 4) (true,false,false)) as (mb' & E & L & H & _).
  - intros []; cbn; lia.
  - reflexivity.
  - apply C14_ex.
  - destruct (H (0,0,0)%Z) as (b & Hb & S6 & Eb). { intros []; cbn; lia. }
    exists mb'. eexists.
    assert (PF: exists f, In f (gb_faces (cubeBlock (0,0,0) (1,1,1) (3,2,1)%Z (mkDims 4 4 4) (true,false,false) (co (0,0,0)%Z I) (co (0,0,0)%Z J) (co (0,0,0)%Z K) b)) /\
       isPeriodicTrans (bcType (gf_face f)) = true /\ outward (nface (gf_face f)) (I,false)).
    { clear - Hb. simpl in Hb. destruct Hb as [<-|[<-|[<-|[<-|[<-|[<-|[]]]]]]];
        (eexists; split; [left; reflexivity|]; split; reflexivity). }
    destruct PF as (f & F1 & F2 & F3). exists f. split; [exact E|]. split; [exact Eb|]. split; [exact F1|]. split; [exact F2|]. split; [exact F3|].
    refine (C16_span_refuted six (0,0,0) (1,1,1) (3,2,1)%Z (mkDims 4 4 4) (true,false,false) mb' (0,0,0)%Z _ f I false C14_ex E _ Eb F1 F2 F3 _ _).
    + intros []; cbn; lia.
    + cbn; lia.
    + cbn; lra.
Qed.
(** the annulus premises are met *)
Example C17_ex_refuted : multiBlockAnnulus 2 (1,0,0) (0,1,0) 90 1 (2,1,1)%Z (mkDims 5 5 5) = None.
Proof. apply C17_axial_refuted; cbn; try lia; unfold dot, vx, vy, vz; cbn; lra. Qed.
Example C17_ex_ok : exists bs, multiBlockAnnulus 6 (2,0,0) (0,1,0) 90 1 (1,2,3)%Z (mkDims 5 5 5) = Some bs.
Proof.
  destruct (C17_geometry_partial 6 (2,0,0) (0,1,0) 90 1 (1,2,3)%Z (mkDims 5 5 5)) as (bs & H & _); cbn; try lia; eauto; try lra;
  unfold dot, vx, vy, vz; cbn; lra.
Qed.
(** one-node-spaced grid x = 3 + 2 i, three nodes, two halo layers: corner halo (0,0,6) gets the affine value *)
Example C18_ex : generateHalo (mkDims 3 3 3) 2 (fun i j k => if interiorNode_dec i j k then affine 3 2 0 1 i j k else 77) 0%Z 0%Z 6%Z = 9.
Proof.
  rewrite C18_uniform_continuation with (c0 := 3) (ci := 2) (cj := 0) (ck := 1); cbn [ni nj nk]; try lia.
  - unfold affine. lra.
  - intros i j k H. destruct (interiorNode_dec i j k) as [|N]; [reflexivity|]. exfalso. apply N. unfold interiorNode in H. cbn [ni nj nk] in H. lia.
  - unfold nodeIn. cbn [ni nj nk]. lia.
Qed.

Print Assumptions C14_neighbours.
Print Assumptions C14_symmetric.
Print Assumptions C14_conforming.
Print Assumptions C15_global_grid.
Print Assumptions C15_shared_plane.
Print Assumptions C16_span_refuted.
Print Assumptions C17_axial_refuted.
Print Assumptions C17_geometry_partial.
Print Assumptions C17_on_annulus.
Print Assumptions C18_interior_untouched.
Print Assumptions C18_uniform_continuation.
Print Assumptions C18_reflection.
