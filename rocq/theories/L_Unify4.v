(** Lemmas for C116: the multi-block cube. *)
From Coq Require Import Reals ZArith String Ascii List Bool Lia Lra Permutation.
From Verif Require Import M_Topology S_Topology L_Topology M_Halo S_Halo L_Halo1 L_Halo3 L_Halo4 L_Halo5 L_Halo6 M_Grid S_Grid L_Grid1 L_Grid2 L_Grid3 M_Unify S_Unify L_Unify L_Unify2 L_Unify3.
Import ListNotations.
Open Scope Z_scope.

Definition within (m c : pt) (s : saxis) : bool :=
  let x := if snd s then co c (fst s) + 1 else co c (fst s) - 1 in (0 <=? x) && (x <? co m (fst s)).
Definition faceType (m : pt) (per : bool * bool * bool) (c : pt) (s : saxis) : string :=
  if within m c s then "b0"%string
  else if perAx per (fst s) then (if snd s then "periodicTransHigh" else "periodicTransLow")%string
  else "adiabaticNoSlipWall"%string.

Lemma cubicFace_type m per i j k f s : outward (nface f) s -> inLattice m (i,j,k) ->
  bcType (cubicFace m (number m (i,j,k)) i j k (perAx per I) (perAx per J) (perAx per K) f) = faceType m per (i,j,k) s.
Proof.
  intros O H. pose proof (H I) as Hi. pose proof (H J) as Hj. pose proof (H K) as Hk.
  destruct m as [[m0 m1] m2], per as [[pI pJ] pK]. cbn [co fst snd perAx] in *.
  apply outward_cases in O as [Q|[Q|[Q|[Q|[Q|Q]]]]]; injection Q as En ->; unfold cubicFace; rewrite En; cbn [fst snd];
   unfold faceType, within; cbv zeta; cbn [fst snd co perAx];
   match goal with |- context [if ?x =? ?y then _ else _] => destruct (Z.eqb_spec x y) end;
   match goal with |- context [(?a <=? ?b) && (?c <? ?d)] => 
     first [replace ((a <=? b) && (c <? d)) with true by (symmetry; apply andb_true_intro; split; lia)
           |replace ((a <=? b) && (c <? d)) with false by (symmetry; apply andb_false_iff; lia)] end;
   try match goal with |- context [if ?p then setPeriodic _ _ _ _ else _] => destruct p end; reflexivity.
Qed.

Definition unitVec (a : axis) : vec := match a with I => (1,0,0) | J => (0,1,0) | K => (0,0,1) end%R.
Definition len (l : R * R * R) (a : axis) : R := match a with I => fst (fst l) | J => snd (fst l) | K => snd l end.
Definition shift (l : R * R * R) (m : pt) (per : bool * bool * bool) (c : pt) (s : saxis) (v : vec) : vec :=
  if within m c s then v
  else if perAx per (fst s) then vadd v (vscale ((if snd s then 1 else -1) * (len l (fst s) / IZR (co m (fst s)))) (unitVec (fst s)))%R
  else v.

Section cube.
Variables (o l : R * R * R) (m : pt) (d : dims) (per : bool * bool * bool).
Hypothesis Hm : forall a, 0 < co m a.

Let cb c b := cubeBlock o l m d per (co c I) (co c J) (co c K) b.

Lemma cb_face c b f s : inLattice m c -> In f (gb_faces (cb c b)) -> outward (nface (gf_face f)) s ->
  neighbor (gf_face f) = option_map (number m) (nextBlock m per c s) /\
  (neighbor (gf_face f) <> None -> orientation (gf_face f) = Some "123"%string) /\
  bcType (gf_face f) = faceType m per c s /\
  (isPeriodicTrans (faceType m per c s) = true ->
    gf_span f = Some (len l (fst s) / IZR (co m (fst s)))%R /\ gf_axis f = Some (unitVec (fst s))).
Proof.
  intros Hc Hf O. destruct c as [[i j] k]. unfold cb in Hf. cbn [co fst snd] in Hf.
  assert (Hin: In (gf_face f) (map gf_face (gb_faces (cubeBlock o l m d per i j k b)))) by (now apply in_map).
  rewrite cubeBlock_faces in Hin. apply in_map_iff in Hin as [f0 [Ef0 Hf0]]. pose proof O as O'. rewrite <- Ef0 in O'. rewrite cubicFace_nface in O'.
  assert (Ty: bcType (gf_face f) = faceType m per (i,j,k) s) by (rewrite <- Ef0; now apply cubicFace_type).
  destruct (cubicFace_neighbor m per i j k f0 s O' Hc) as (N1 & N2 & _). rewrite Ef0 in N1, N2.
  split; [exact N1|]. split; [exact N2|]. split; [exact Ty|]. intros Hp. rewrite <- Ty in Hp. destruct s as [a x].
  destruct (cube_span o l m d per i j k b f a Hm Hc Hf Hp x O) as [Sp Ax]. rewrite Sp, Ax. split; destruct a; reflexivity.
Qed.

Lemma faceType_cases c s : In (faceType m per c s) ["b0"; "periodicTransLow"; "periodicTransHigh"; "adiabaticNoSlipWall"]%string.
Proof. unfold faceType. destruct (within m c s), (perAx per (fst s)), (snd s); simpl; tauto. Qed.

Lemma cb_wellTyped c b f s : inLattice m c -> In f (gb_faces (cb c b)) -> outward (nface (gf_face f)) s -> wellTyped f.
Proof.
  intros Hc Hf O. destruct (cb_face c b f s Hc Hf O) as (N & _ & Ty & Pd). split.
  - rewrite Ty. pose proof (faceType_cases c s) as X. unfold boundaryTypes. simpl in *. intuition.
  - rewrite Ty. intros P. assert (P': isPeriodicTrans (faceType m per c s) = true).
    { pose proof (faceType_cases c s) as X. unfold isPeriodicTrans. destruct X as [X|[X|[X|[X|[]]]]]; rewrite <- X in *; try discriminate P; reflexivity. }
    destruct (Pd P') as [-> ->]. split; [discriminate|]. split; [discriminate|]. rewrite N.
    unfold nextBlock. change ((0 <=? (if snd s then co c (fst s) + 1 else co c (fst s) - 1)) && ((if snd s then co c (fst s) + 1 else co c (fst s) - 1) <? co m (fst s))) with (within m c s).
    unfold faceType in P. destruct (within m c s); [discriminate P|]. destruct (perAx per (fst s)); [discriminate|discriminate P].
Qed.

Lemma cb_motion c b f s T v : inLattice m c -> In f (gb_faces (cb c b)) -> outward (nface (gf_face f)) s -> motion f T ->
  T v = shift l m per c s v.
Proof.
  intros Hc Hf O M. destruct (cb_face c b f s Hc Hf O) as (N & _ & Ty & Pd).
  assert (Lo: forall u, bcType (gf_face f) = "periodicTransLow"%string ->
     gf_axis f = Some (unitVec (fst s)) /\ gf_span f = Some (len l (fst s) / IZR (co m (fst s)))%R /\
     within m c s = false /\ perAx per (fst s) = true /\ snd s = false \/ u = 0%R).
  { intros u Eq. left. rewrite Ty in Eq. unfold faceType in *. destruct (within m c s); [discriminate Eq|].
    destruct (perAx per (fst s)); [|discriminate Eq]. destruct (snd s); [discriminate Eq|].
    destruct (Pd eq_refl). auto. }
  assert (Hi: bcType (gf_face f) = "periodicTransHigh"%string ->
     gf_axis f = Some (unitVec (fst s)) /\ gf_span f = Some (len l (fst s) / IZR (co m (fst s)))%R /\
     within m c s = false /\ perAx per (fst s) = true /\ snd s = true).
  { intros Eq. rewrite Ty in Eq. unfold faceType in *. destruct (within m c s); [discriminate Eq|].
    destruct (perAx per (fst s)); [|discriminate Eq]. destruct (snd s); [|discriminate Eq].
    destruct (Pd eq_refl). auto. }
  unfold shift. destruct M as [Nn|a x Et Ea Es|a x Et Ea Es|a x Et Ea Es|a x Et Ea Es].
  - rewrite Ty in Nn. unfold faceType in Nn. destruct (within m c s); [reflexivity|]. destruct (perAx per (fst s)); [|reflexivity].
    exfalso. apply Nn. destruct (snd s); simpl; tauto.
  - destruct (Lo 1%R Et) as [(A1 & A2 & A3 & A4 & A5)|A]; [|lra]. rewrite A3, A4, A5.
    rewrite A1 in Ea. rewrite A2 in Es. injection Ea as <-. injection Es as <-. unfold translate. f_equal. f_equal. lra.
  - destruct (Hi Et) as (A1 & A2 & A3 & A4 & A5). rewrite A3, A4, A5.
    rewrite A1 in Ea. rewrite A2 in Es. injection Ea as <-. injection Es as <-. unfold translate. f_equal. f_equal. lra.
  - exfalso. rewrite Ty in Et. unfold faceType in Et. destruct (within m c s), (perAx per (fst s)), (snd s); discriminate Et.
  - exfalso. rewrite Ty in Et. unfold faceType in Et. destruct (within m c s), (perAx per (fst s)), (snd s); discriminate Et.
Qed.

(** ** A distributed cube *)
Variables (mb mb' : list gblock) (w : list (list gblock)) (ng : Z).
Hypothesis Hlen : co m I * co m J * co m K = Z.of_nat (length mb).
Hypothesis Hsix : forall b, In b mb -> sixFaces b.
Hypothesis Emb : multiBlockCube mb o l m d per = Some mb'.
Hypothesis Hw : Permutation (List.concat w) mb'.
Hypothesis Hng : 0 < ng.
Hypothesis Hd : forall a, 0 < dim d a.

Lemma cube_in b : In b (List.concat w) -> exists c b0, inLattice m c /\ b = cb c b0.
Proof.
  intros Hb. apply (Permutation_in _ Hw) in Hb.
  destruct (cube_result mb o l m d per Hm Hlen Hsix) as (mb2 & E2 & _ & _ & H). assert (mb2 = mb') by congruence. subst mb2.
  destruct (H b Hb) as (c & b0 & Hc & _ & _ & _ & Eb). exists c, b0. auto.
Qed.
Lemma cb_num c b0 : gb_num (cb c b0) = number m c.
Proof. unfold cb. rewrite cubeBlock_num. destruct c as [[i j] k]. reflexivity. Qed.
Lemma cb_dims c b0 : gb_dims (cb c b0) = d.
Proof. apply cubeBlock_dims. Qed.

Lemma cubew_conforming : conforming ng (world w).
Proof.
  eapply (cube_conforming mb o l m d per ng (world w)); eauto.
  unfold blocksOf, world. rewrite <- concat_map. now apply Permutation_map.
Qed.

Lemma cube_joined c b0 f c' b0' o1 s : inLattice m c -> inLattice m c' -> In f (gb_faces (cb c b0)) ->
  joined (world w) (toSBlock (cb c b0)) (gf_face f) (toSBlock (cb c' b0')) o1 -> outward (nface (gf_face f)) s ->
  (forall a, o1 a = (a, true)) /\ nextBlock m per c s = Some c'.
Proof.
  intros Hc Hc' Hf Jn O. destruct (cb_face c b0 f s Hc Hf O) as (N & Or & _). pose proof Jn as (_ & _ & _ & En & L & Eo).
  split.
  - rewrite Or in Eo by congruence. rewrite <- oI_show in Eo. assert (Eo': show oI = show o1) by congruence. intros a. symmetry. apply (show_inj oI o1 Eo' a).
  - rewrite En in N. unfold num in N. cbn [toSBlock sb_topo nblki] in N. rewrite cb_num in N.
    destruct (nextBlock m per c s) as [c2|] eqn:E2; [|discriminate]. cbn [option_map] in N. injection N as N.
    f_equal. apply (number_inj m); auto. now apply (nextBlock_in m per c s).
Qed.

Lemma act_id o1 s : (forall a, o1 a = (a, true)) -> act o1 s = s.
Proof. intros H. unfold act. rewrite H. destruct s as [a []]; reflexivity. Qed.

Lemma next_other c s c' (t : saxis) : nextBlock m per c s = Some c' -> fst t <> fst s -> co c' (fst t) = co c (fst t).
Proof.
  intros E N. unfold nextBlock in E. destruct ((0 <=? _) && (_ <? _)); [|destruct (perAx per (fst s)); [|discriminate]];
    injection E as <-; destruct c as [[i j] k], (fst t), (fst s); try congruence; reflexivity.
Qed.

Lemma cube_regular : regular w.
Proof.
  intros b f b' o1 s g t T Hb Hb' Hf Jn O Hg Og Nt MT.
  pose proof (proj1 (conf_six ng w b' cubew_conforming Hb')) as S6'.
  destruct (cube_in b Hb) as (c & b0 & Hc & ->). destruct (cube_in b' Hb') as (c' & b0' & Hc' & ->).
  destruct (cube_joined c b0 f c' b0' o1 s Hc Hc' Hf Jn O) as [Id Nx].
  destruct (face_at (cb c' b0') t S6') as (g' & Hg' & Og').
  pose proof (cb_wellTyped c' b0' g' t Hc' Hg' Og') as W'. destruct (mv_has g' W') as (T' & MT' & _).
  assert (Ec: co c' (fst t) = co c (fst t)) by (apply (next_other c s); auto).
  assert (Ew: within m c' t = within m c t) by (unfold within; now rewrite Ec).
  exists g', T'. rewrite (act_id o1 t Id). split; [auto|]. split; [auto|]. split; [auto|]. split.
  - destruct (cb_face c b0 g t Hc Hg Og) as [-> _]. destruct (cb_face c' b0' g' t Hc' Hg' Og') as [-> _].
    unfold nextBlock.
    change ((0 <=? (if snd t then co c (fst t) + 1 else co c (fst t) - 1)) && ((if snd t then co c (fst t) + 1 else co c (fst t) - 1) <? co m (fst t))) with (within m c t).
    change ((0 <=? (if snd t then co c' (fst t) + 1 else co c' (fst t) - 1)) && ((if snd t then co c' (fst t) + 1 else co c' (fst t) - 1) <? co m (fst t))) with (within m c' t).
    rewrite Ew. destruct (within m c t); [split; discriminate|]. destruct (perAx per (fst t)); [split; discriminate|split; auto].
  - intros v. rewrite (cb_motion c' b0' g' t T' v Hc' Hg' Og' MT'), (cb_motion c b0 g t T v Hc Hg Og MT).
    unfold shift. now rewrite Ew.
Qed.

Lemma cube_commuting : commuting w.
Proof.
  intros b f g s t T U v Hb Hf Hg Of Og _ MT MU. destruct (cube_in b Hb) as (c & b0 & Hc & ->).
  rewrite !(cb_motion c b0 f s T _ Hc Hf Of MT), !(cb_motion c b0 g t U _ Hc Hg Og MU).
  unfold shift. destruct (within m c s), (within m c t), (perAx per (fst s)), (perAx per (fst t)); try reflexivity.
  now rewrite !vadd_assoc, (vadd_comm (vscale _ (unitVec (fst s)))).
Qed.

(** glued entries of joined blocks *)
Lemma cube_glued c b0 f c' b0' o1 s p p' : inLattice m c -> inLattice m c' -> In f (gb_faces (cb c b0)) ->
  joined (world w) (toSBlock (cb c b0)) (gf_face f) (toSBlock (cb c' b0')) o1 -> outward (nface (gf_face f)) s ->
  glued ng d d s o1 (pos KNode p) (pos KNode p') ->
  forall a, co c' a * (dim d a - 1) + co p' a =
     co c a * (dim d a - 1) + co p a +
     (if axis_eqb a (fst s) then if within m c s then 0 else (if snd s then -1 else 1) * (co m a * (dim d a - 1)) else 0).
Proof.
  intros Hc Hc' Hf Jn O Gl a. destruct (cube_joined c b0 f c' b0' o1 s Hc Hc' Hf Jn O) as [Id Nx].
  specialize (Gl a). cbv zeta in Gl. rewrite Id in Gl. cbn [fst snd] in Gl. unfold pos in Gl.
  rewrite (act_id o1 s Id) in Gl. unfold nextBlock in Nx.
  change ((0 <=? (if snd s then co c (fst s) + 1 else co c (fst s) - 1)) && ((if snd s then co c (fst s) + 1 else co c (fst s) - 1) <? co m (fst s))) with (within m c s) in Nx.
  pose proof (Hc (fst s)) as Hcs.
  destruct (axis_eqb a (fst s)) eqn:Ea.
  - apply axis_eqb_eq in Ea. subst a. unfold facePlane, flip in Gl. cbn [fst snd] in Gl.
    assert (Ew: forall x, co (with_co c (fst s) x) (fst s) = x) by (intros x; destruct c as [[i j] k], (fst s); reflexivity).
    destruct (within m c s) eqn:Wi.
    + injection Nx as <-. rewrite Ew. destruct (snd s); cbn [negb] in Gl; lia.
    + assert (B: co c (fst s) = if snd s then co m (fst s) - 1 else 0).
      { unfold within in Wi. cbv zeta in Wi. apply andb_false_iff in Wi. destruct (snd s); lia. }
      destruct (perAx per (fst s)); [|discriminate]. injection Nx as <-. rewrite Ew, B. destruct (snd s); cbn [negb] in Gl; lia.
  - assert (Na: a <> fst s) by (intros X; apply axis_eqb_eq in X; congruence).
    assert (Ec: co c' a = co c a).
    { change a with (fst (a, true)). apply (next_other c s c' (a, true)); auto. }
    rewrite Ec. lia.
Qed.
End cube.
