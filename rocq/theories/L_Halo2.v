(** The key index lemma: what sits in layer g of the receive buffer is the glued entry. *)
From Coq Require Import ZArith String Ascii List Bool Lia.
From Verif Require Import M_Topology S_Topology L_Topology M_Halo S_Halo L_Halo1.
Import ListNotations.
Open Scope Z_scope.

(** orientation used by the sender: the inverse of the receiver's *)
Definition sendFace (f : Z) (o : orient) : Z := saxis_face (flip (act o (face_saxis f))).

Definition recvIdx (k : kind) (ng : Z) (dA : dims) (f g a b : Z) : pt :=
  asm (ax_of f) (recvLo k ng dA (face_saxis f) + g) a b.
Definition sendIdx (k : kind) (ng : Z) (dB : dims) (f : Z) (o : orient) (g a b : Z) : pt :=
  let m := sendFace f o in
  let o' := inv o in
  let ab := orientIdx (orSpec m o') (shapeOf k ng dB (face_saxis m)) a b in
  asm (ax_of m) (sendAt k ng dB (face_saxis m) (negb (snd (o' (ax_of m)))) g) (fst ab) (snd ab).

(** Computation of the sender's orienter as a function of face and orientation, tabulated. *)
Definition orienter_eqb (a b : orienter) := Bool.eqb (oT a) (oT b) && Bool.eqb (oF0 a) (oF0 b) && Bool.eqb (oF1 a) (oF1 b).
Lemma orienter_eqb_eq a b : orienter_eqb a b = true -> a = b.
Proof. destruct a as [[] [] []], b as [[] [] []]; unfold orienter_eqb; simpl; congruence. Qed.

(* receiver face f with orientation o: tangential axes of the receiver t0,t1; sender normal axis n *)
Definition orExpect (f : Z) (o : orient) : orienter :=
  let r := ax_of f in
  let m := fst (o r) in
  mkOr (negb (axis_eqb (fst (o (tan1 r))) (tan1 m))) (negb (snd (o (tan0 r)))) (negb (snd (o (tan1 r)))).
Definition chk_exp (t : saxis * saxis * saxis) : bool :=
  let '(x,y,z) := t in let o := mk x y z in
  forallb (fun f => orienter_eqb (orSpec (sendFace f o) (inv o)) (orExpect f o)) six.
Lemma chk_exp_all : forallb chk_exp all_orients = true.
Proof. vm_compute. reflexivity. Qed.

Lemma orSpec_ext f o o' : (forall a, o a = o' a) -> orSpec f o = orSpec f o'.
Proof. intros H. unfold orSpec. now rewrite (show_ext o o' H). Qed.

Lemma orSpec_expect f o : legal o -> 1 <= f <= 6 -> orSpec (sendFace f o) (inv o) = orExpect f o.
Proof.
  intros L R. pose proof (legal_in _ L) as Hin.
  pose proof chk_exp_all as C. rewrite forallb_forall in C. specialize (C _ Hin).
  unfold chk_exp in C. rewrite forallb_forall in C. specialize (C _ (six_range _ R)). cbv beta in C.
  apply orienter_eqb_eq in C.
  assert (E: orExpect f (mk (o I) (o J) (o K)) = orExpect f o).
  { unfold orExpect. now rewrite <- !mk_eta. }
  rewrite <- E, <- C. f_equal.
  unfold sendFace, act. now rewrite <- mk_eta.
Qed.

Lemma inv_normal f o : legal o -> 1 <= f <= 6 ->
  snd (inv o (ax_of (sendFace f o))) = snd (o (ax_of f)).
Proof.
  intros L R. unfold sendFace, ax_of. rewrite face_saxis_face.
  assert (E: fst (flip (act o (face_saxis f))) = fst (o (fst (face_saxis f)))).
  { unfold flip, act. destruct (snd (face_saxis f)); reflexivity. }
  rewrite E. pose proof (inv_inverse o L (fst (face_saxis f), true)) as H.
  unfold act in H. simpl in H. destruct (o (fst (face_saxis f))) as [x s]; simpl in *.
  destruct s; destruct (inv o x) as [y t]; simpl in *; unfold flip in H; simpl in H; destruct t; simpl in H; congruence.
Qed.

Ltac all_o o L :=
  let H := fresh in pose proof (legal_legalb _ L) as H; unfold legalb in H;
  destruct (o I) as [xI sI] eqn:EI, (o J) as [xJ sJ] eqn:EJ, (o K) as [xK sK] eqn:EK; cbn [fst snd] in H;
  destruct xI, xJ, xK; simpl in H; try discriminate; clear H.

Definition tangential_conform (dA dB : dims) (s : saxis) (o : orient) : Prop :=
  forall a, a <> fst s -> dim dB (fst (o a)) = dim dA a.

Lemma idx_glued k ng dA dB f o g a b : 0 < ng -> legal o -> 1 <= f <= 6 ->
  tangential_conform dA dB (face_saxis f) o -> 0 <= g < nLayers k ng ->
  glued ng dA dB (face_saxis f) o (pos k (recvIdx k ng dA f g a b)) (pos k (sendIdx k ng dB f o g a b)).
Proof.
  intros Hng L R T Hg. unfold sendIdx. rewrite orSpec_expect, inv_normal by auto.
  pose proof (T I) as TI. pose proof (T J) as TJ. pose proof (T K) as TK. clear T.
  apply six_range in R. simpl in R.
  unfold recvIdx, glued, sendFace, ax_of, shapeOf, orExpect, ax_of. rewrite face_saxis_face.
  unfold act.
  all_o o L;
  (destruct R as [<-|[<-|[<-|[<-|[<-|[<-|[]]]]]]]; cbn [face_saxis fst snd tan0 tan1] in *; rewrite ?EI, ?EJ, ?EK in *;
   cbn [flip fst snd negb] in *;
   try (specialize (TI ltac:(congruence))); try (specialize (TJ ltac:(congruence))); try (specialize (TK ltac:(congruence)));
   cbn [dim] in *;
   unfold orientIdx, orientShape, sendAt; cbn [fst snd oT oF0 oF1];
   intros c; destruct c; rewrite ?EI, ?EJ, ?EK; destruct sI, sJ, sK, k;
   cbn [axis_eqb fst snd negb tan0 tan1 asm co pos facePlane dim flip orientIdx orientShape oT oF0 oF1 extent
        recvLo sendLo sendAt nLayers] in *; lia).
Qed.
