(** The glued entry of a face-halo entry is interior to the neighbour. *)
From Coq Require Import ZArith String Ascii List Bool Lia Sorted Permutation.
From Verif Require Import M_Topology S_Topology L_Topology M_Halo S_Halo L_Halo1 L_Halo2 L_Halo3.
Import ListNotations.
Open Scope Z_scope.

Lemma sendIdx_interior k ng dA dB f o p : 0 < ng -> legal o -> 1 <= f <= 6 ->
  tangential_conform dA dB (face_saxis f) o ->
  covers k ng dA f p -> (forall a, a <> ax_of f -> interiorAt k ng dA p a) ->
  ng < dim dB (ax_of (sendFace f o)) ->
  interior k ng dB (sendIdx k ng dB f o (co p (ax_of f) - lo k ng dA f) (co p (tan0 (ax_of f))) (co p (tan1 (ax_of f)))).
Proof.
  intros Hng L R T Hc HI HN. unfold covers in Hc.
  pose proof (HI I) as II. pose proof (HI J) as IJ. pose proof (HI K) as IK. clear HI.
  unfold interiorAt, extent in II, IJ, IK.
  unfold sendIdx. rewrite orSpec_expect, inv_normal by auto.
  pose proof (T I) as TI. pose proof (T J) as TJ. pose proof (T K) as TK. clear T.
  unfold interior, interiorAt, extent. intros c.
  apply six_range in R. simpl in R.
  unfold sendFace, ax_of, shapeOf, orExpect, ax_of in *. rewrite face_saxis_face in *.
  unfold act in *.
  destruct p as [[pi pj] pk].
  all_o o L;
  (destruct R as [<-|[<-|[<-|[<-|[<-|[<-|[]]]]]]]; cbn [face_saxis fst snd tan0 tan1 lo recvLo] in *; rewrite ?EI, ?EJ, ?EK in *;
   cbn [flip fst snd negb co] in *;
   try (specialize (TI ltac:(congruence))); try (specialize (TJ ltac:(congruence))); try (specialize (TK ltac:(congruence)));
   try (specialize (II ltac:(congruence))); try (specialize (IJ ltac:(congruence))); try (specialize (IK ltac:(congruence)));
   unfold lo, recvLo in *; cbn [face_saxis fst snd dim] in *;
   unfold orientIdx, orientShape, sendAt; cbn [fst snd oT oF0 oF1];
   destruct c; destruct sI, sJ, sK, k;
   cbn [axis_eqb fst snd negb tan0 tan1 asm co dim flip oT oF0 oF1 extent sendLo nLayers] in *; lia).
Qed.

