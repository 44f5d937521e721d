(** C116: halo nodes made consistent across connected and periodic faces (unifySolverGrid).
    Vocabulary: S_Unify, S_Halo.  Model: M_Unify. *)
From Coq Require Import Reals ZArith String Ascii List Bool Lia Lra Permutation.
From Verif Require Import M_Topology S_Topology L_Topology M_Halo S_Halo L_Halo1 L_Halo3 L_Halo4 L_Halo5 L_Halo6 M_Grid S_Grid L_Grid1 L_Grid2 L_Grid3 P_Grid M_Unify S_Unify L_Unify L_Unify2 L_Unify3 L_Unify4.
Import ListNotations.
Open Scope Z_scope.

Definition typed (w : list (list gblock)) : Prop := forall b f, In b (List.concat w) -> In f (gb_faces b) -> wellTyped f.

Lemma unify_split ng w st : conforming ng (world w) -> typed w ->
  exists cw s3 st', setupAll ng (world w) = Some cw /\
    rounds 3 ng cw (fold_left (haloBlock ng) (List.concat w) st) = Some s3 /\
    unifySolverGrid ng w st = Some st' /\
    forall b p, In b (List.concat w) -> at3 (st' (gb_num b)) p = passed ng (gb_dims b) p (gb_faces b) (at3 (s3 (gb_num b)) p).
Proof.
  intros C W. pose proof C as (G & ND & _). rewrite world_nums in ND.
  destruct (halo_main ng (world w) KNode C) as (cw & Ecw & H).
  set (s0 := fold_left (haloBlock ng) (List.concat w) st).
  destruct (H vec s0) as (s1 & E1 & _). destruct (H vec s1) as (s2 & E2 & _). destruct (H vec s2) as (s3 & E3 & _).
  assert (R: rounds 3 ng cw s0 = Some s3) by (cbn [rounds]; now rewrite E1, E2, E3).
  destruct (moveBlocks_at ng G (List.concat w) s3 ND) as (st' & E4 & V & _).
  { intros b f Hb Hf. split; [|now apply (W b)]. apply (six_range' b); auto. apply (conf_six ng w b C Hb). }
  exists cw, s3, st'. split; [exact Ecw|]. split; [exact R|]. split; [|exact V].
  unfold unifySolverGrid. change (setupAll ng (map (map solverBlock) w)) with (setupAll ng (world w)). rewrite Ecw.
  fold s0. rewrite R. exact E4.
Qed.

(** C116.  On every consistent multi-block grid (any number of blocks and ranks, any orientations, block
    self-connections included) whose periodic faces carry span and axis, unifying succeeds, leaves every
    interior node where it was, and puts each face-halo node of each connected face at the position of
    the neighbour's interior node glued to it, carried by the motion of the periodic pair (the
    identity for an ordinary connection). *)
Theorem C116_face_halo_nodes : forall ng w st, conforming ng (world w) -> typed w ->
  exists st', unifySolverGrid ng w st = Some st' /\
    (forall b p, In b (List.concat w) -> interior KNode ng (gb_dims b) p ->
       at3 (st' (gb_num b)) p = at3 (st (gb_num b)) p) /\
    (forall b f b' o s p T, In b (List.concat w) -> In b' (List.concat w) -> In f (gb_faces b) ->
       joined (world w) (toSBlock b) (gf_face f) (toSBlock b') o -> outward (nface (gf_face f)) s ->
       inHalo KNode ng (gb_dims b) s p -> (forall a, a <> fst s -> interiorAt KNode ng (gb_dims b) p a) ->
       ng < dim (gb_dims b') (fst (o (fst s))) -> motion f T ->
       exists p', interior KNode ng (gb_dims b') p' /\
         glued ng (gb_dims b) (gb_dims b') s o (pos KNode p) (pos KNode p') /\
         at3 (st' (gb_num b)) p = T (at3 (st (gb_num b')) p')).
Proof.
  intros ng w st C W. destruct (unify_split ng w st C W) as (cw & s3 & st' & Ecw & R & Eu & V).
  exists st'. split; [exact Eu|]. pose proof C as (G & ND & _). rewrite world_nums in ND.
  destruct (halo_faces ng (world w) KNode C) as (cw1 & Ecw1 & H1). assert (cw1 = cw) by congruence. subst cw1.
  destruct (halo_untouched ng (world w) KNode C) as (cw1 & Ecw2 & H2). assert (cw1 = cw) by congruence. subst cw1.
  set (s0 := fold_left (haloBlock ng) (List.concat w) st) in *.
  assert (Z0: forall b p, In b (List.concat w) -> interior KNode ng (gb_dims b) p -> at3 (s0 (gb_num b)) p = at3 (st (gb_num b)) p).
  { intros b p Hb Hp. unfold s0. destruct (haloBlocks_at ng (List.concat w) st ND) as [V0 _]. rewrite V0 by auto.
    now apply gen_interior. }
  assert (Keep: forall (s s' : state vec) b p, communicate ng KNode cw s = Some s' -> In b (List.concat w) -> interior KNode ng (gb_dims b) p ->
     at3 (s' (gb_num b)) p = at3 (s (gb_num b)) p).
  { intros s s' b p Ec Hb Hp. destruct (H2 vec s) as (s2 & E2 & _ & Hi). assert (s2 = s') by congruence. subst s2.
    apply (Hi (toSBlock b) p); auto. now apply in_world. }
  cbn [rounds] in R. destruct (communicate ng KNode cw s0) as [s1|] eqn:E1; [|discriminate].
  destruct (communicate ng KNode cw s1) as [s2|] eqn:E2; [|discriminate].
  destruct (communicate ng KNode cw s2) as [s3'|] eqn:E3; [|discriminate]. injection R as ->.
  split.
  - intros b p Hb Hp. rewrite V by auto. rewrite (passed_interior ng w C b p _ Hb Hp).
    rewrite (Keep s2 s3), (Keep s1 s2), (Keep s0 s1) by auto. now apply Z0.
  - intros b f b' o s p T Hb Hb' Hf Jn O Hh Ht Dn M.
    destruct (H1 vec s2) as (s3' & E3' & F3). assert (s3' = s3) by congruence. subst s3'.
    destruct (F3 (toSBlock b) (gf_face f) (toSBlock b') o s p Jn O Hh Ht Dn) as (p' & Hp' & Gl & Ev).
    exists p'. split; [exact Hp'|]. split; [exact Gl|].
    rewrite V by auto. rewrite (passed_face ng w C b f s p _ Hb Hf O Hh Ht), (mv_motion f T _ (W b f Hb Hf) M).
    f_equal. etransitivity; [exact Ev|]. change (num (toSBlock b')) with (gb_num b').
    rewrite (Keep s1 s2), (Keep s0 s1) by auto. now apply Z0.
Qed.

(** ... and the edges and corners: on a grid whose connectivity is regular along edges and whose periodic
    motions commute, any arrangement of all nodes that agrees with each block's own (extrapolated)
    nodes away from connected faces, and across every connected face with the neighbour's nodes carried
    by the face's motion, is what unifying produces -- at every array entry. *)
Theorem C116_edges_and_corners : forall ng w st (X : Z -> pt -> vec), conforming ng (world w) -> typed w ->
  (forall b a, In b (List.concat w) -> ng < dim (gb_dims b) a) -> regular w -> commuting w ->
  (forall b p, In b (List.concat w) -> inArray KNode ng (gb_dims b) p -> ~ connectedHalo ng b p ->
     X (gb_num b) p = extrapolated ng (gb_dims b) (st (gb_num b)) p) ->
  (forall b f b' o s p p' T, In b (List.concat w) -> In b' (List.concat w) -> In f (gb_faces b) ->
     joined (world w) (toSBlock b) (gf_face f) (toSBlock b') o -> outward (nface (gf_face f)) s ->
     inHalo KNode ng (gb_dims b) s p -> inArray KNode ng (gb_dims b) p ->
     glued ng (gb_dims b) (gb_dims b') s o (pos KNode p) (pos KNode p') -> motion f T ->
     X (gb_num b) p = T (X (gb_num b') p')) ->
  exists st', unifySolverGrid ng w st = Some st' /\
    forall b p, In b (List.concat w) -> inArray KNode ng (gb_dims b) p -> at3 (st' (gb_num b)) p = X (gb_num b) p.
Proof.
  intros ng w st X C W Th Rg Cm Xf Xg.
  destruct (unify_split ng w st C W) as (cw & s3 & st' & Ecw & R & Eu & V). exists st'. split; [exact Eu|].
  pose proof C as (G & ND & _). rewrite world_nums in ND.
  set (s0 := fold_left (haloBlock ng) (List.concat w) st) in *.
  assert (R0: right ng w X 0 s0).
  { apply (right_start ng w C W s0 X). intros b p Hb Hp Hc. symmetry. rewrite Xf; auto.
    - unfold s0. destruct (haloBlocks_at ng (List.concat w) st ND) as [V0 _]. rewrite V0 by auto. reflexivity.
    - intros (f & n & s & Hf & En & O & Hh).
      assert (Q: slab ng b p (fst s) = true).
      { apply (slab_iff ng w C); auto. exists f, s, n. auto. }
      unfold cnt in Hc. destruct (fst s); rewrite Q in Hc; unfold b2n in Hc; lia. }
  destruct (right_rounds ng w C W Th Rg Cm X) with (cw := cw) (n := 3%nat) (r := 0%nat) (s := s0) as (s3' & E3 & R3); auto.
  { intros b f b' o s p p' T (H1 & H2 & H3 & H4). intros. eapply Xg; eauto. }
  assert (s3' = s3) by congruence. subst s3'. intros b p Hb Hp. rewrite V by auto. apply R3; auto.
  pose proof (cnt_le3 ng b p). lia.
Qed.

(** ** The multi-block cube *)
Definition decode (m : pt) (n : Z) : pt := (n mod co m I, n / co m I mod co m J, n / co m I / co m J).
Lemma decode_number m c : (forall a, 0 < co m a) -> inLattice m c -> decode m (number m c) = c.
Proof.
  intros Hm Hc. pose proof (Hm I). pose proof (Hm J). pose proof (Hc I). pose proof (Hc J). pose proof (Hc K).
  destruct m as [[m0 m1] m2], c as [[i j] k]. unfold decode, number. cbn [co fst snd] in *.
  replace (i + m0 * (j + m1 * k)) with (i + (j + m1 * k) * m0) by ring.
  rewrite Z.mod_add, Z.div_add by lia. rewrite (Z.mod_small i), (Z.div_small i) by lia. rewrite Z.add_0_l.
  replace (j + m1 * k) with (j + k * m1) by ring. rewrite Z.mod_add, Z.div_add by lia.
  rewrite (Z.mod_small j), (Z.div_small j) by lia. reflexivity.
Qed.

Open Scope R_scope.
Lemma uniformNode_shift o l N n : (0 < N)%Z -> uniformNode o l N (n + N) = uniformNode o l N n + l /\
  uniformNode o l N (n - N) = uniformNode o l N n - l.
Proof.
  intros H. unfold uniformNode. assert (IZR N <> 0) by (apply not_0_IZR; lia). rewrite plus_IZR, minus_IZR. split; field; auto.
Qed.

(** the solver block arrays hold the created grid in their interior *)
Definition loaded (ng : Z) (w : list (list gblock)) (st : state vec) : Prop :=
  forall b p, In b (List.concat w) -> interior KNode ng (gb_dims b) p ->
    at3 (st (gb_num b)) p = coords b (co p I - ng, co p J - ng, co p K - ng)%Z.

Lemma cube_loaded mb o l m d per mb' w ng st c b : freshFor m mb -> (forall a, 2 <= dim d a)%Z ->
  multiBlockCube mb o l m d per = Some mb' -> Permutation (List.concat w) mb' -> loaded ng w st ->
  inLattice m c -> In b (List.concat w) -> gb_num b = number m c ->
  forall p, interior KNode ng (gb_dims b) p -> gb_dims b = d -> at3 (st (gb_num b)) p = latticeNode ng o l m d c p.
Proof.
  intros F Hd E Hw Ld Hc Hb En p Hp Ed. rewrite (Ld b p Hb Hp). rewrite Ed in Hp.
  destruct (C15_global_grid mb o l m d per F Hd) as (mb2 & E2 & H). assert (mb2 = mb') by congruence. subst mb2.
  pose proof F as (Hm & HL & HS).
  set (q := (co p I - ng, co p J - ng, co p K - ng)%Z).
  assert (Hq: forall a, (0 <= co q a < dim d a)%Z).
  { intros a. specialize (Hp a). unfold interiorAt, extent in Hp. unfold q. destruct a; cbn [co fst snd] in *; lia. }
  destruct (H c q Hc Hq) as (b2 & Eb2 & Cq).
  assert (b2 = b).
  { apply (Permutation_in _ Hw) in Hb. destruct (cube_result mb o l m d per Hm HL HS) as (mb3 & E3 & _ & _ & H3).
    assert (mb3 = mb') by congruence. subst mb3. destruct (H3 b Hb) as (c2 & b0 & Hc2 & _ & _ & En2 & Eb).
    assert (number m c2 = number m c).
    { rewrite <- En, Eb, cubeBlock_num. destruct c2 as [[i j] k]. reflexivity. }
    congruence. }
  subst b2. rewrite Cq. unfold latticeNode, q. cbn [co fst snd].
  repeat match goal with |- (_, _) = (_, _) => f_equal end; f_equal; lia.
Qed.

Lemma lattice_affine ng o l m d c : (forall a, 2 <= dim d a)%Z -> (forall a, 0 < co m a)%Z ->
  exists x0 x1 y0 y1 z0 z1, forall i j k, latticeNode ng o l m d c (i,j,k) =
    (affine x0 x1 0 0 i j k, affine y0 0 y1 0 i j k, affine z0 0 0 z1 i j k).
Proof.
  intros Hd Hm.
  assert (A: forall o l N e, (0 < N)%Z -> exists c0 c1, forall n, uniformNode o l N (e + n - ng) = c0 + c1 * IZR n).
  { intros o' l' N e HN. exists (o' + l' * IZR (e - ng) / IZR N), (l' / IZR N). intros n. unfold uniformNode.
    rewrite !minus_IZR, plus_IZR. assert (IZR N <> 0) by (apply not_0_IZR; lia). field. auto. }
  assert (P: forall a, (0 < co m a * (dim d a - 1))%Z) by (intros a; specialize (Hd a); specialize (Hm a); nia).
  destruct (A (fst (fst o)) (fst (fst l)) _ (co c I * (dim d I - 1))%Z (P I)) as (x0 & x1 & Hx).
  destruct (A (snd (fst o)) (snd (fst l)) _ (co c J * (dim d J - 1))%Z (P J)) as (y0 & y1 & Hy).
  destruct (A (snd o) (snd l) _ (co c K * (dim d K - 1))%Z (P K)) as (z0 & z1 & Hz).
  exists x0, x1, y0, y1, z0, z1. intros i j k. unfold latticeNode. cbn [co fst snd]. rewrite Hx, Hy, Hz. unfold affine.
  repeat match goal with |- (_, _) = (_, _) => f_equal end; ring.
Qed.

(** For the grids made by multiBlockCube with a single block in each periodic direction: after unifying,
    every node array entry of every block -- faces, edges and corners of the halo -- is the node of
    the one uniform grid, continued beyond the box. *)
Theorem C116_cube_lattice : forall mb o l m d per mb' w ng st, freshFor m mb -> (0 < ng)%Z -> (forall a, 2 <= dim d a)%Z ->
  (forall a, ng < dim d a)%Z -> multiBlockCube mb o l m d per = Some mb' -> Permutation (List.concat w) mb' -> loaded ng w st ->
  (forall a, perAx per a = true -> co m a = 1%Z) ->
  exists st', unifySolverGrid ng w st = Some st' /\
    forall c p, inLattice m c -> inArray KNode ng d p -> at3 (st' (number m c)) p = latticeNode ng o l m d c p.
Proof.
  intros mb o l m d per mb' w ng st F Hng Hd Hth E Hw Ld Hper. pose proof F as (Hm & HL & HS).
  assert (Hd0: forall a, (0 < dim d a)%Z) by (intros a; specialize (Hd a); lia).
  pose proof (cubew_conforming o l m d per Hm mb mb' w ng HL HS E Hw Hng Hd0) as C.
  pose proof (cube_in o l m d per Hm mb mb' w HL HS E Hw) as In_c.
  assert (W: typed w).
  { intros b f Hb Hf. pose proof (proj1 (conf_six ng w b C Hb)) as S6.
    pose proof (six_range' b f S6 Hf) as R.
    assert (O: exists s, outward (nface (gf_face f)) s).
    { assert (X: (nface (gf_face f) = 1 \/ nface (gf_face f) = 2 \/ nface (gf_face f) = 3 \/ nface (gf_face f) = 4 \/ nface (gf_face f) = 5 \/ nface (gf_face f) = 6)%Z) by lia.
      destruct X as [->|[->|[->|[->|[->| ->]]]]]; eexists; reflexivity. }
    destruct O as [s O]. destruct (In_c b Hb) as (c & b0 & Hc & ->). eapply cb_wellTyped; eauto. }
  destruct (C116_edges_and_corners ng w st (fun n p => latticeNode ng o l m d (decode m n) p) C W) as (st' & Eu & H).
  - intros b a Hb. destruct (In_c b Hb) as (c & b0 & Hc & ->). rewrite cb_dims. apply Hth.
  - eapply cube_regular; eauto.
  - eapply cube_commuting; eauto.
  - intros b p Hb Hp _. destruct (In_c b Hb) as (c & b0 & Hc & Eb).
    assert (En: gb_num b = number m c) by (rewrite Eb; apply cb_num).
    assert (Ed: gb_dims b = d) by (rewrite Eb; apply cb_dims).
    rewrite En, (decode_number m c Hm Hc), <- En.
    destruct (lattice_affine ng o l m d c Hd Hm) as (x0 & x1 & y0 & y1 & z0 & z1 & A).
    assert (Hi: forall i j k, interiorNode d ng i j k -> st (gb_num b) i j k =
       (affine x0 x1 0 0 i j k, affine y0 0 y1 0 i j k, affine z0 0 0 z1 i j k)).
    { intros i j k Hn. rewrite <- A. change (st (gb_num b) i j k) with (at3 (st (gb_num b)) (i,j,k)).
      eapply cube_loaded; eauto. rewrite Ed. unfold interiorNode in Hn. intros []; unfold interiorAt, extent; cbn [co fst snd dim]; lia. }
    destruct p as [[i j] k]. rewrite A. unfold extrapolated, at3. cbn [fst snd]. rewrite Ed in *.
    assert (N: nodeIn d ng i j k).
    { pose proof (Hp I) as P1. pose proof (Hp J) as P2. pose proof (Hp K) as P3. unfold extent in P1, P2, P3. cbn [co fst snd dim] in *.
      unfold nodeIn. lia. }
    pose proof (Hd I). pose proof (Hd J). pose proof (Hd K). cbn [dim] in *.
    repeat match goal with |- (_, _) = (_, _) => f_equal end; symmetry; apply C18_uniform_continuation; auto; try lia;
      intros a b' c' Hn; rewrite Hi by auto; reflexivity.
  - intros b f b' o1 s p p' T Hb Hb' Hf Jn O Hh Hp Gl M.
    destruct (In_c b Hb) as (c & b0 & Hc & ->). destruct (In_c b' Hb') as (c' & b0' & Hc' & ->).
    rewrite !cb_num, !(decode_number m) by auto. rewrite !cb_dims in *.
    rewrite (cb_motion o l m d per Hm c b0 f s T _ Hc Hf O M).
    pose proof (cube_glued o l m d per Hm mb w ng c b0 f c' b0' o1 s p p' Hc Hc' Hf Jn O Gl) as Q.
    pose proof (cube_joined o l m d per Hm w c b0 f c' b0' o1 s Hc Hc' Hf Jn O) as [_ Nx].
    pose proof (Q I) as Q1. pose proof (Q J) as Q2. pose proof (Q K) as Q3. clear Q.
    assert (P: forall a, (0 < co m a * (dim d a - 1))%Z) by (intros a; specialize (Hd a); specialize (Hm a); nia).
    unfold nextBlock in Nx.
    change ((0 <=? (if snd s then co c (fst s) + 1 else co c (fst s) - 1)) && ((if snd s then co c (fst s) + 1 else co c (fst s) - 1) <? co m (fst s)))%Z with (within m c s) in Nx.
    unfold shift. destruct (within m c s) eqn:Wi.
    + unfold latticeNode. destruct (fst s); cbn [axis_eqb] in *; rewrite Q1, Q2, Q3, !Z.add_0_r; reflexivity.
    + destruct (perAx per (fst s)) eqn:Pe; [|discriminate]. pose proof (Hper _ Pe) as M1.
      assert (D1: len l (fst s) / IZR (co m (fst s)) = len l (fst s)) by (rewrite M1; field). rewrite D1. clear D1.
      assert (Sh: forall a, fst s = a -> forall oo ll, let N := (co m a * (dim d a - 1))%Z in let n := (co c a * (dim d a - 1) + co p a - ng)%Z in
         uniformNode oo ll N n = uniformNode oo ll N (n + (if snd s then -1 else 1) * N) + (if snd s then 1 else -1) * ll).
      { intros a _ oo ll N n. destruct (uniformNode_shift oo ll N n (P a)) as [S1 S2].
        destruct (snd s); [replace (n + -1 * N)%Z with (n - N)%Z by ring; rewrite S2; lra
                          |replace (n + 1 * N)%Z with (n + N)%Z by ring; rewrite S1; lra]. }
      unfold latticeNode. destruct (fst s) eqn:Es; cbn [axis_eqb] in *; rewrite Q1, Q2, Q3, !Z.add_0_r;
        unfold vadd, vscale, unitVec, vx, vy, vz, len; cbn [fst snd].
      * rewrite (Sh I eq_refl). cbv zeta.
        repeat match goal with |- (_, _) = (_, _) => f_equal end; [|ring|ring]. f_equal; [f_equal; lia|lra].
      * rewrite (Sh J eq_refl). cbv zeta.
        repeat match goal with |- (_, _) = (_, _) => f_equal end; [ring| |ring]. f_equal; [f_equal; lia|lra].
      * rewrite (Sh K eq_refl). cbv zeta.
        repeat match goal with |- (_, _) = (_, _) => f_equal end; [ring|ring|]. f_equal; [f_equal; lia|lra].
  - exists st'. split; [exact Eu|]. intros c p Hc Hp.
    destruct (cube_result mb o l m d per Hm HL HS) as (mb3 & E3 & _ & H3 & _). assert (mb3 = mb') by congruence. subst mb3.
    destruct (H3 c Hc) as (b0 & _ & _ & Eb). apply nth_error_In in Eb.
    assert (Hb: In (cubeBlock o l m d per (co c I) (co c J) (co c K) b0) (List.concat w)).
    { apply (Permutation_in _ (Permutation_sym Hw)). exact Eb. }
    pose proof (H _ p Hb) as Hx. rewrite cubeBlock_dims in Hx. specialize (Hx Hp). rewrite cubeBlock_num in Hx.
    destruct c as [[i j] k]. cbn [co fst snd] in Hx. rewrite (decode_number m (i,j,k) Hm Hc) in Hx. exact Hx.
Qed.

(** Consequence of the wrong span stored by multiBlockCube (C16): with two or more blocks in a periodic
    direction, every face-halo node beyond the periodic faces is misplaced along that direction by
    length - length/blocks. *)
Theorem C16_halo_offset_refuted : forall mb o l m d per mb' w ng st a c p, freshFor m mb -> (0 < ng)%Z -> (forall a, 2 <= dim d a)%Z ->
  (forall a, ng < dim d a)%Z -> multiBlockCube mb o l m d per = Some mb' -> Permutation (List.concat w) mb' -> loaded ng w st ->
  perAx per a = true -> (2 <= co m a)%Z -> lengthOf l a <> 0 ->
  inLattice m c -> co c a = 0%Z -> (0 <= co p a < ng)%Z -> (forall a', a' <> a -> interiorAt KNode ng d p a') ->
  exists st', unifySolverGrid ng w st = Some st' /\ at3 (st' (number m c)) p <> latticeNode ng o l m d c p.
Proof.
  intros mb o l m d per mb' w ng st a c p F Hng Hd Hth E Hw Ld Pe M2 Hl Hc C0 Hpa Hpt. pose proof F as (Hm & HL & HS).
  assert (Hd0: forall a, (0 < dim d a)%Z) by (intros x; specialize (Hd x); lia).
  pose proof (cubew_conforming o l m d per Hm mb mb' w ng HL HS E Hw Hng Hd0) as C.
  pose proof (cube_in o l m d per Hm mb mb' w HL HS E Hw) as In_c.
  assert (W: typed w).
  { intros b f Hb Hf. pose proof (proj1 (conf_six ng w b C Hb)) as S6.
    pose proof (six_range' b f S6 Hf) as R.
    assert (O: exists s, outward (nface (gf_face f)) s).
    { assert (X: (nface (gf_face f) = 1 \/ nface (gf_face f) = 2 \/ nface (gf_face f) = 3 \/ nface (gf_face f) = 4 \/ nface (gf_face f) = 5 \/ nface (gf_face f) = 6)%Z) by lia.
      destruct X as [->|[->|[->|[->|[->| ->]]]]]; eexists; reflexivity. }
    destruct O as [s O]. destruct (In_c b Hb) as (c1 & b0 & Hc1 & ->). eapply cb_wellTyped; eauto. }
  destruct (C116_face_halo_nodes ng w st C W) as (st' & Eu & _ & H). exists st'. split; [exact Eu|].
  destruct (cube_result mb o l m d per Hm HL HS) as (mb3 & E3 & _ & H3 & _). assert (mb3 = mb') by congruence. subst mb3.
  destruct (H3 c Hc) as (b0 & _ & _ & Eb). apply nth_error_In in Eb.
  set (b := cubeBlock o l m d per (co c I) (co c J) (co c K) b0) in *.
  assert (Hb: In b (List.concat w)) by (apply (Permutation_in _ (Permutation_sym Hw)); exact Eb).
  assert (En: gb_num b = number m c) by apply cb_num.
  assert (Ed: gb_dims b = d) by apply cb_dims.
  pose proof (proj1 (conf_six ng w b C Hb)) as S6.
  destruct (face_at b (a, false) S6) as (f & Hf & O).
  assert (Wi: within m c (a, false) = false) by (unfold within; cbv zeta; cbn [fst snd]; rewrite C0; reflexivity).
  destruct (cb_face o l m d per Hm c b0 f (a, false) Hc Hf O) as (Nb & _).
  assert (Nx: exists c', nextBlock m per c (a, false) = Some c').
  { unfold nextBlock. cbn [fst snd]. rewrite C0, Pe. cbn. eexists. reflexivity. }
  destruct Nx as [c' Nx]. rewrite Nx in Nb. cbn [option_map] in Nb.
  destruct (conf_joined ng w b f _ C Hb Hf Nb) as (b' & o1 & s & Hb' & Jn & Os & _).
  assert (s = (a, false)). { apply outward_range in O as [_ ->]. apply outward_range in Os as [_ ->]. reflexivity. } subst s.
  destruct (In_c b' Hb') as (c2 & b0' & Hc2 & Eb').
  assert (Ed': gb_dims b' = d) by (rewrite Eb'; apply cb_dims).
  pose proof Jn as Jn'. rewrite Eb' in Jn'.
  destruct (cube_joined o l m d per Hm w c b0 f c2 b0' o1 (a, false) Hc Hc2 Hf Jn' O) as [Id Nx2].
  assert (c2 = c') by congruence. subst c2. clear Nx2.
  destruct (mv_has f (W b f Hb Hf)) as (T & MT & _).
  destruct (H b f b' o1 (a, false) p T Hb Hb' Hf Jn O) as (p' & Hp' & Gl & Ev).
  { rewrite Ed. unfold inHalo. cbn [fst snd]. exact Hpa. }
  { rewrite Ed. exact Hpt. }
  { rewrite Ed'. apply Hth. }
  { exact MT. }
  rewrite En in Ev. rewrite Ev. clear Ev. rewrite Ed, Ed' in Gl.
  assert (Hst: at3 (st (gb_num b')) p' = latticeNode ng o l m d c' p').
  { eapply cube_loaded; eauto. rewrite Eb'. apply cb_num. }
  rewrite Hst, (cb_motion o l m d per Hm c b0 f (a, false) T _ Hc Hf O MT). unfold shift. rewrite Wi. cbn [fst snd]. rewrite Pe.
  pose proof (cube_glued o l m d per Hm mb w ng c b0 f c' b0' o1 (a, false) p p' Hc Hc2 Hf Jn' O Gl a) as Q.
  cbn [fst snd] in Q. rewrite Wi in Q. replace (axis_eqb a a) with true in Q by (destruct a; reflexivity).
  assert (P: (0 < co m a * (dim d a - 1))%Z) by (specialize (Hd a); specialize (Hm a); nia).
  assert (M0: 2 <= IZR (co m a)) by (apply IZR_le; lia).
  assert (Cmp: forall v, lengthOf v a = match a with I => vx v | J => vy v | S_Topology.K => vz v end) by (intros v; destruct a; reflexivity).
  intros Eq. apply (f_equal (fun v => lengthOf v a)) in Eq. rewrite !Cmp in Eq.
  assert (Z: forall oo, uniformNode oo (lengthOf l a) (co m a * (dim d a - 1)) (co c' a * (dim d a - 1) + co p' a - ng) - lengthOf l a / IZR (co m a)
        = uniformNode oo (lengthOf l a) (co m a * (dim d a - 1)) (co c a * (dim d a - 1) + co p a - ng) -> False).
  { intros oo Z. rewrite Q in Z.
    replace (co c a * (dim d a - 1) + co p a + 1 * (co m a * (dim d a - 1)) - ng)%Z
       with (co c a * (dim d a - 1) + co p a - ng + co m a * (dim d a - 1))%Z in Z by ring.
    rewrite (proj1 (uniformNode_shift oo (lengthOf l a) _ _ P)) in Z.
    assert (X: lengthOf l a * (1 - / IZR (co m a)) = 0) by (unfold Rdiv in Z; lra).
    apply Rmult_integral in X as [X|X]; [auto|].
    assert (/ IZR (co m a) <= / 2) by (apply Rinv_le_contravar; lra). lra. }
  destruct a; unfold latticeNode, vadd, vscale, unitVec, vx, vy, vz, len, lengthOf in *; cbn [fst snd co dim] in *.
  - apply (Z (fst (fst o))). lra.
  - apply (Z (snd (fst o))). lra.
  - apply (Z (snd o)). lra.
Qed.

(** ** Non-vacuity: the 3 x 2 x 1 cube of P_Grid, periodic in k (one block in that direction), spread over
    two ranks. *)
Definition exLoaded (mb : list gblock) (ng : Z) : state vec := fun n i j k =>
  match find (fun b => gb_num b =? n)%Z mb with
  | Some b => coords b (i - ng, j - ng, k - ng)%Z
  | None => (0, 0, 0)
  end.

Example C116_ex : exists mb' w st, multiBlockCube six (0,0,0) (3,2,1) (3,2,1)%Z (mkDims 4 4 4) (false,false,true) = Some mb' /\
  Permutation (List.concat w) mb' /\ length w = 2%nat /\ loaded 2 w st /\
  exists st', unifySolverGrid 2 w st = Some st' /\
    at3 (st' 5%Z) (0,0,0)%Z = (2 - 2/3, 1 - 2/3, -(2/3)).
Proof.
  destruct (cube_result six (0,0,0) (3,2,1) (3,2,1)%Z (mkDims 4 4 4) (false,false,true)) as (mb' & E & L & _ & Hin).
  { intros []; cbn; lia. } { reflexivity. } { apply C14_ex. }
  exists mb', [firstn 2 mb'; skipn 2 mb'], (exLoaded mb' 2). split; [exact E|].
  assert (Cc: List.concat [firstn 2 mb'; skipn 2 mb'] = mb') by (cbn [List.concat]; rewrite app_nil_r; apply firstn_skipn).
  split; [now rewrite Cc|]. split; [reflexivity|].
  pose proof (cubew_conforming (0,0,0) (3,2,1) (3,2,1)%Z (mkDims 4 4 4) (false,false,true)) as CF.
  assert (Ld: loaded 2 [firstn 2 mb'; skipn 2 mb'] (exLoaded mb' 2)).
  { intros b p Hb _. rewrite Cc in Hb. unfold exLoaded, at3.
    assert (ND: NoDup (map gb_num mb')).
    { assert (C: conforming 2 (world [mb'])).
      { apply (CF ltac:(intros []; cbn; lia) six mb' [mb'] 2%Z); auto; try reflexivity; try lia.
        - apply C14_ex. - cbn [List.concat]. now rewrite app_nil_r. - intros []; cbn; lia. }
      destruct C as (_ & ND & _). rewrite world_nums in ND. cbn [List.concat] in ND. now rewrite app_nil_r in ND. }
    assert (Fd: find (fun b0 => gb_num b0 =? gb_num b)%Z mb' = Some b).
    { clear - Hb ND. induction mb' as [|h t IH]; [destruct Hb|]. cbn [find]. inversion ND; subst.
      destruct Hb as [->|Hb]; [now rewrite Z.eqb_refl|]. destruct (Z.eqb_spec (gb_num h) (gb_num b)) as [Q|_]; [|auto].
      exfalso. apply H1. rewrite Q. now apply in_map. }
    rewrite Fd. reflexivity. }
  split; [exact Ld|].
  destruct (C116_cube_lattice six (0,0,0) (3,2,1) (3,2,1)%Z (mkDims 4 4 4) (false,false,true) mb' [firstn 2 mb'; skipn 2 mb'] 2 (exLoaded mb' 2))
    as (st' & Eu & H); auto.
  - apply C14_ex. - lia. - intros []; cbn; lia. - intros []; cbn; lia. - now rewrite Cc.
  - intros []; cbn; auto; discriminate.
  - exists st'. split; [exact Eu|]. specialize (H (2,1,0)%Z (0,0,0)%Z). change (number (3,2,1)%Z (2,1,0)%Z) with 5%Z in H.
    rewrite H; [|intros []; cbn; lia|intros []; unfold extent; cbn; lia].
    unfold latticeNode, uniformNode. cbn [co fst snd dim ni nj nk].
    repeat match goal with |- (_, _) = (_, _) => f_equal end;
      repeat match goal with |- context [IZR ?e] => let v := eval vm_compute in e in progress change (IZR e) with (IZR v) end; lra.
Qed.

Print Assumptions C116_face_halo_nodes.
Print Assumptions C116_edges_and_corners.
Print Assumptions C116_cube_lattice.
Print Assumptions C16_halo_offset_refuted.
