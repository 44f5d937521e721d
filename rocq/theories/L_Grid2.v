(** multiBlockCube: conformity of the result, coordinates, periodic span. *)
From Coq Require Import Reals ZArith String List Bool Lia Lra Permutation.
From Verif Require Import M_Topology S_Topology L_Topology M_Halo S_Halo L_Halo1 L_Halo3 M_Grid S_Grid L_Grid1.
Import ListNotations.
Open Scope Z_scope.




Lemma cubeBlock_faces o l m d per i j k b :
  map gf_face (gb_faces (cubeBlock o l m d per i j k b)) =
  map (cubicFace m (number m (i,j,k)) i j k (perAx per I) (perAx per J) (perAx per K)) (map gf_face (gb_faces b)).
Proof.
  destruct o as [[ox oy] oz], l as [[lx ly] lz], m as [[m0 m1] m2], per as [[pI pJ] pK].
  unfold cubeBlock, cube. cbn [gb_faces gb_num]. rewrite <- blkNumber_number.
  rewrite !map_map. apply map_ext. intros f. rewrite setPI_face. reflexivity.
Qed.
Lemma cubeBlock_num o l m d per i j k b : gb_num (cubeBlock o l m d per i j k b) = number m (i,j,k).
Proof. rewrite <- blkNumber_number. destruct o as [[ox oy] oz], l as [[lx ly] lz], m as [[m0 m1] m2], per as [[pI pJ] pK]. reflexivity. Qed.
Lemma cubeBlock_dims o l m d per i j k b : gb_dims (cubeBlock o l m d per i j k b) = d.
Proof. destruct o as [[ox oy] oz], l as [[lx ly] lz], m as [[m0 m1] m2], per as [[pI pJ] pK]. reflexivity. Qed.

(** the result, position by position *)
Lemma cube_result mb o l m d per : (forall a, 0 < co m a) -> co m I * co m J * co m K = Z.of_nat (length mb) ->
  (forall b, In b mb -> sixFaces b) ->
  exists mb', multiBlockCube mb o l m d per = Some mb' /\ length mb' = length mb /\
   (forall c, inLattice m c -> exists b, In b mb /\ sixFaces b /\ nth_error mb' (Z.to_nat (number m c)) =
        Some (cubeBlock o l m d per (co c I) (co c J) (co c K) b)) /\
   (forall b', In b' mb' -> exists c b, inLattice m c /\ In b mb /\ sixFaces b /\ nth_error mb' (Z.to_nat (number m c)) = Some b' /\
        b' = cubeBlock o l m d per (co c I) (co c J) (co c K) b).
Proof.
  intros P E S6. destruct (cube_loop mb o l m d per P E) as (mb' & E' & L & H). exists mb'. split; [exact E'|]. split; [exact L|].
  assert (A: forall c, inLattice m c -> exists b, In b mb /\ sixFaces b /\ nth_error mb' (Z.to_nat (number m c)) =
        Some (cubeBlock o l m d per (co c I) (co c J) (co c K) b)).
  { intros [[i j] k] Hc. pose proof (number_range m _ Hc).
    destruct (nth_error mb (Z.to_nat (number m (i,j,k)))) as [b|] eqn:Eb; [|apply nth_error_None in Eb; lia].
    exists b. pose proof (nth_error_In _ _ Eb). split; [auto|]. split; [auto|]. apply H; auto. }
  split; auto. intros b' Hb'. apply In_nth_error in Hb' as [n Hn].
  assert (Ln: (n < length mb')%nat) by (apply nth_error_Some; congruence).
  destruct (number_onto m (Z.of_nat n) P ltac:(lia)) as [c [Hc Ec]]. exists c.
  destruct (A c Hc) as (b & Hb & S & Hnth). exists b. rewrite Ec, Nat2Z.id in Hnth |- *.
  split; [exact Hc|]. split; [exact Hb|]. split; [exact S|]. split; [exact Hn|]. congruence.
Qed.

Lemma face_of b n : sixFaces b -> 1 <= n <= 6 -> exists f, In f (map gf_face (gb_faces b)) /\ nface f = n.
Proof.
  unfold sixFaces. intros E R. rewrite <- map_map with (f := gf_face) in E.
  assert (In n (map nface (map gf_face (gb_faces b)))) by (rewrite E; simpl; lia).
  apply in_map_iff in H as [f [Ef Hf]]. eauto.
Qed.

Definition oI : orient := fun a => (a, true).
Lemma oI_legal : legal oI. Proof. intros [] []; simpl; congruence. Qed.
Lemma oI_act s : act oI s = s. Proof. destruct s as [[] []]; reflexivity. Qed.
Lemma oI_show : show oI = "123"%string. Proof. reflexivity. Qed.

Lemma cube_neighbours mb o l m d per : (forall a, 0 < co m a) -> co m I * co m J * co m K = Z.of_nat (length mb) ->
  (forall b, In b mb -> sixFaces b) ->
  exists mb', multiBlockCube mb o l m d per = Some mb' /\ length mb' = length mb /\
   forall c, inLattice m c -> exists b', nth_error mb' (Z.to_nat (number m c)) = Some b' /\
     gb_num b' = number m c /\ gb_dims b' = d /\ sixFaces b' /\
     forall f s, In f (gb_faces b') -> outward (nface (gf_face f)) s ->
       neighbor (gf_face f) = option_map (number m) (nextBlock m per c s) /\
       (neighbor (gf_face f) <> None -> orientation (gf_face f) = Some "123"%string) /\
       (neighbor (gf_face f) = None -> bcType (gf_face f) = "adiabaticNoSlipWall"%string).
Proof.
  intros P E S6. destruct (cube_result mb o l m d per P E S6) as (mb' & E' & L & H & _). exists mb'. split; [exact E'|]. split; [exact L|].
  intros [[i j] k] Hc. destruct (H _ Hc) as (b & Hb & S & Hn). cbn [co fst snd] in Hn.
  eexists. split; [exact Hn|]. rewrite cubeBlock_num, cubeBlock_dims. split; auto. split; auto.
  assert (EF := cubeBlock_faces o l m d per i j k b). split.
  - unfold sixFaces in *. rewrite <- map_map with (f := gf_face). rewrite EF, map_map.
    rewrite <- S. rewrite <- (map_map gf_face nface). apply map_ext. intros f. apply cubicFace_nface.
  - intros f s Hf O. assert (Hin: In (gf_face f) (map gf_face (gb_faces (cubeBlock o l m d per i j k b)))) by (now apply in_map).
    rewrite EF in Hin. apply in_map_iff in Hin as [f0 [Ef0 Hf0]]. rewrite <- Ef0 in *. rewrite cubicFace_nface in O.
    apply cubicFace_neighbor; auto.
Qed.

(** ... and therefore, however the blocks are distributed over ranks, the grid is conforming *)
Lemma cube_conforming mb o l m d per ng w : (forall a, 0 < co m a) -> co m I * co m J * co m K = Z.of_nat (length mb) ->
  (forall b, In b mb -> sixFaces b) -> 0 < ng -> (forall a, 0 < dim d a) ->
  forall mb', multiBlockCube mb o l m d per = Some mb' ->
  Permutation (blocksOf w) (map toSBlock mb') -> conforming ng w.
Proof.
  intros P E S6 Hng Hd mb' E' Perm.
  destruct (cube_neighbours mb o l m d per P E S6) as (mb2 & E2 & L & H). assert (mb2 = mb') by congruence. subst mb2.
  destruct (cube_result mb o l m d per P E S6) as (mb2 & E3 & _ & _ & HR). assert (mb2 = mb') by congruence. subst mb2.
  assert (IN: forall A, In A (blocksOf w) <-> exists b, In b mb' /\ A = toSBlock b).
  { intros A. split; intros G.
    - apply (Permutation_in _ Perm) in G. apply in_map_iff in G as [b [<- Hb]]. eauto.
    - destruct G as [b [Hb ->]]. apply (Permutation_in _ (Permutation_sym Perm)). now apply in_map. }
  assert (NUM: map gb_num mb' = map Z.of_nat (seq 0 (length mb'))).
  { apply nth_ext with (d := 0) (d' := 0); [now rewrite !map_length, seq_length|].
    intros n Hn. rewrite map_length in Hn.
    destruct (number_onto m (Z.of_nat n) P ltac:(lia)) as [c [Hc Ec]].
    destruct (H c Hc) as (b & Hb & Nb & _). rewrite Ec, Nat2Z.id in Hb.
    rewrite (nth_error_nth (map gb_num mb') n 0 (map_nth_error gb_num _ _ Hb)).
    erewrite (nth_error_nth (map Z.of_nat (seq 0 (length mb'))) n 0).
    2: { apply map_nth_error. apply nth_error_nth' with (d := 0%nat). now rewrite seq_length. }
    rewrite seq_nth by auto. lia. }
  split; [exact Hng|]. split.
  { assert (X: Permutation (map num (blocksOf w)) (map gb_num mb')).
    { rewrite (Permutation_map num Perm). rewrite map_map. reflexivity. }
    apply (Permutation_NoDup (Permutation_sym X)). rewrite NUM. apply FinFun.Injective_map_NoDup; [intros x y; lia|apply seq_NoDup]. }
  split.
  - intros A HA. apply IN in HA as [b [Hb ->]]. destruct (HR b Hb) as (c & b0 & Hc & _ & _ & Hn & _).
    destruct (H c Hc) as (b1 & Hb1 & _ & Hdm & S & _). assert (b1 = b) by congruence. subst b1. split.
    + unfold toSBlock; cbn [sb_topo faces]. unfold sixFaces in S. rewrite map_map. exact S.
    + intros a. cbn [toSBlock sb_dims]. rewrite Hdm. apply Hd.
  - intros A f n HA Hf En. apply IN in HA as [b [Hb ->]]. destruct (HR b Hb) as (c & b0 & Hc & _ & _ & Hn & _).
    destruct (H c Hc) as (b1 & Hb1 & Nb & Hdm & S & HF). assert (b1 = b) by congruence. subst b1.
    cbn [toSBlock sb_topo faces] in Hf. apply in_map_iff in Hf as [gf [Egf Hgf]]. subst f.
    assert (Rf: 1 <= nface (gf_face gf) <= 6).
    { assert (In (nface (gf_face gf)) [1;2;3;4;5;6]) by (rewrite <- S; apply (in_map (fun f => nface (gf_face f))); auto).
      simpl in H0; lia. }
    set (s := face_saxis (nface (gf_face gf))).
    assert (O: outward (nface (gf_face gf)) s).
    { unfold s. assert (X: nface (gf_face gf) = 1 \/ nface (gf_face gf) = 2 \/ nface (gf_face gf) = 3 \/ nface (gf_face gf) = 4 \/ nface (gf_face gf) = 5 \/ nface (gf_face gf) = 6) by lia.
      destruct X as [->|[->|[->|[->|[->| ->]]]]]; reflexivity. }
    destruct (HF gf s Hgf O) as (N1 & N2 & _). rewrite En in N1.
    destruct (nextBlock m per c s) as [c'|] eqn:Nx; [|discriminate]. simpl in N1. injection N1 as N1.
    pose proof (nextBlock_in _ _ _ _ _ Hc Nx) as Hc'. pose proof (nextBlock_sym _ _ _ _ _ Hc Nx) as Nx'.
    destruct (H c' Hc') as (b' & Hb' & Nb' & Hdm' & S' & HF').
    assert (Hflip: exists n', 1 <= n' <= 6 /\ outward n' (flip s)).
    { destruct s as [[] []]; [exists 1|exists 2|exists 3|exists 4|exists 5|exists 6]; split; try lia; reflexivity. }
    destruct Hflip as [n' [Rn' On']].
    assert (Hg: exists gf', In gf' (gb_faces b') /\ nface (gf_face gf') = n').
    { destruct (face_of b' n' S' Rn') as [f' [Hf' Ef']]. apply in_map_iff in Hf' as [gf' [<- Hgf']]. eauto. }
    destruct Hg as [gf' [Hgf' Egf']].
    destruct (HF' gf' (flip s) Hgf' ltac:(now rewrite Egf')) as (M1 & M2 & _). rewrite Nx' in M1. simpl in M1.
    exists (toSBlock b'), oI, (gf_face gf'), oI, s.
    assert (InB: In (toSBlock b') (blocksOf w)) by (apply IN; exists b'; split; auto; eapply nth_error_In; eauto).
    assert (InA: In (toSBlock b) (blocksOf w)) by (apply IN; eauto).
    split; [|split; [|split; [|split; [|split; [|split]]]]].
    + repeat split; auto.
      * cbn [toSBlock sb_topo faces]. now apply in_map.
      * unfold num; cbn [toSBlock sb_topo nblki]. congruence.
      * apply oI_legal.
      * rewrite oI_show. apply N2. congruence.
    + unfold num; cbn [toSBlock sb_topo nblki]. congruence.
    + intros x. now rewrite !oI_act.
    + exact O.
    + repeat split; auto.
      * cbn [toSBlock sb_topo faces]. now apply in_map.
      * unfold num; cbn [toSBlock sb_topo nblki]. congruence.
      * apply oI_legal.
      * rewrite oI_show. apply M2. congruence.
    + rewrite oI_act, Egf'. exact On'.
    + intros a _. cbn [toSBlock sb_dims]. rewrite Hdm, Hdm'. reflexivity.
Qed.

(** coordinates *)
Open Scope R_scope.
Lemma linspace_uniform a b n i : (2 <= n)%Z -> (0 <= i < n)%Z -> linspace a b n i = a + (b - a) * IZR i / IZR (n - 1).
Proof.
  intros Hn Hi. unfold linspace. destruct (Z.leb_spec n 1); [lia|].
  assert (IZR (n - 1) <> 0) by (apply not_0_IZR; lia).
  destruct (Z.eqb_spec i (n - 1)) as [->|]; field; auto.
Qed.
Lemma linspace_nested o l m i n a : (0 < m)%Z -> (2 <= n)%Z -> (0 <= i < m)%Z -> (0 <= a < n)%Z ->
  let B := linspace o (o + l) (m + 1) in
  linspace (B i) (B i + (B (i + 1)%Z - B i)) n a = uniformNode o l (m * (n - 1)) (i * (n - 1) + a).
Proof.
  intros Hm Hn Hi Ha B. unfold B. rewrite linspace_uniform by lia. rewrite !linspace_uniform by lia.
  unfold uniformNode. replace (m + 1 - 1)%Z with m by lia. rewrite !plus_IZR, !mult_IZR.
  assert (IZR (n - 1) <> 0) by (apply not_0_IZR; lia). assert (IZR m <> 0) by (apply not_0_IZR; lia).
  field. auto.
Qed.

Lemma cube_coords o l m d per i j k b p : (forall a, 0 < co m a)%Z -> inLattice m (i,j,k) ->
  (forall a, 2 <= dim d a)%Z -> (forall a, 0 <= co p a < dim d a)%Z ->
  coords (cubeBlock o l m d per i j k b) p =
  (uniformNode (fst (fst o)) (fst (fst l)) (co m I * (ni d - 1)) (i * (ni d - 1) + co p I),
   uniformNode (snd (fst o)) (snd (fst l)) (co m J * (nj d - 1)) (j * (nj d - 1) + co p J),
   uniformNode (snd o) (snd l) (co m K * (nk d - 1)) (k * (nk d - 1) + co p K)).
Proof.
  intros P H D R. pose proof (P I). pose proof (P J). pose proof (P K). pose proof (H I). pose proof (H J). pose proof (H K).
  pose proof (D I). pose proof (D J). pose proof (D K). pose proof (R I). pose proof (R J). pose proof (R K).
  destruct o as [[ox oy] oz], l as [[lx ly] lz], m as [[m0 m1] m2], per as [[pI pJ] pK].
  destruct p as [[a a'] a'']. unfold coords, at3, cubeBlock, cube. cbn [gb_x gb_y gb_z co fst snd dim] in *.
  rewrite !linspace_nested by lia. reflexivity.
Qed.

(** periodic data *)
Lemma cube_span o l m d per i j k b f a : (forall a, 0 < co m a)%Z -> inLattice m (i,j,k) ->
  In f (gb_faces (cubeBlock o l m d per i j k b)) -> isPeriodicTrans (bcType (gf_face f)) = true ->
  forall s, outward (nface (gf_face f)) (a, s) ->
  gf_span f = Some (match a with I => fst (fst l) / IZR (co m I) | J => snd (fst l) / IZR (co m J) | K => snd l / IZR (co m K) end) /\
  gf_axis f = Some (match a with I => (1,0,0) | J => (0,1,0) | K => (0,0,1) end).
Proof.
  intros P H Hf Hp s O. pose proof (P I). pose proof (P J). pose proof (P K). pose proof (H I). pose proof (H J). pose proof (H K).
  destruct o as [[ox oy] oz], l as [[lx ly] lz], m as [[m0 m1] m2], per as [[pI pJ] pK].
  unfold cubeBlock, cube in Hf. cbn [gb_faces co fst snd] in *. apply in_map_iff in Hf as [f0 [Ef Hf0]]. subst f.
  rewrite setPI_face in Hp, O.
  assert (W: forall o0 l0 m0 i0, (0 < m0)%Z -> (0 <= i0 < m0)%Z -> linspace o0 (o0 + l0) (m0 + 1) (i0 + 1)%Z - linspace o0 (o0 + l0) (m0 + 1) i0 = l0 / IZR m0).
  { intros o0 l0 m' i0 Hm Hi. rewrite !linspace_uniform by lia. replace (m' + 1 - 1)%Z with m' by lia. rewrite plus_IZR.
    assert (IZR m' <> 0) by (apply not_0_IZR; lia). field. auto. }
  unfold setPeriodicInfo. rewrite Hp.
  apply outward_cases in O as [E|[E|[E|[E|[E|E]]]]]; injection E as En -> _; rewrite En; simpl existsb; cbn [gf_span gf_axis]; rewrite W by lia; auto.
Qed.
