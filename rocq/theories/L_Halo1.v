(** Index arithmetic for the halo exchange. *)
From Coq Require Import ZArith String Ascii List Bool Lia.
From Verif Require Import M_Topology S_Topology L_Topology M_Halo S_Halo.
Import ListNotations.
Open Scope Z_scope.

(** zrange *)
Lemma zrange_length a b : length (zrange a b) = Z.to_nat (b - a).
Proof. unfold zrange. now rewrite map_length, seq_length. Qed.
Lemma zrange_nth a b g d : 0 <= g < b - a -> nth (Z.to_nat g) (zrange a b) d = a + g.
Proof.
  intros H. unfold zrange.
  rewrite (nth_indep _ d (a + Z.of_nat 0)) by (rewrite map_length, seq_length; lia).
  rewrite (map_nth (fun i => a + Z.of_nat i)). rewrite seq_nth by lia. lia.
Qed.
Lemma zrange_map_add a b c : map (fun i => c + i) (zrange a b) = zrange (c + a) (c + b).
Proof. unfold zrange. rewrite map_map. replace (c + b - (c + a)) with (b - a) by lia.
  apply map_ext. intros. lia. Qed.
Lemma zrange_in a b x : In x (zrange a b) <-> a <= x < b.
Proof.
  unfold zrange. rewrite in_map_iff. split.
  - intros [i [<- H]]. apply in_seq in H. lia.
  - intros H. exists (Z.to_nat (x - a)). split; [lia|]. apply in_seq. lia.
Qed.
Lemma zrange_cons a b : a < b -> zrange a b = a :: zrange (a + 1) b.
Proof.
  intros H. unfold zrange. replace (Z.to_nat (b - a)) with (S (Z.to_nat (b - (a + 1)))) by lia.
  simpl. f_equal; [lia|]. rewrite <- seq_shift, map_map. apply map_ext. intros. lia.
Qed.
Lemma zrange_snoc a b : a < b -> zrange a b = zrange a (b - 1) ++ [b - 1].
Proof.
  intros H. unfold zrange. replace (Z.to_nat (b - a)) with (Z.to_nat (b - 1 - a) + 1)%nat by lia.
  rewrite seq_app, map_app. f_equal. simpl. f_equal. lia.
Qed.
Lemma rev_nth_zrange a b g d : 0 <= g < b - a -> nth (Z.to_nat g) (rev (zrange a b)) d = b - 1 - g.
Proof.
  intros H. rewrite rev_nth by (rewrite zrange_length; lia).
  rewrite zrange_length. replace (Z.to_nat (b - a) - S (Z.to_nat g))%nat with (Z.to_nat (b - a - 1 - g)) by lia.
  rewrite zrange_nth; lia.
Qed.

(** Closed forms of slice positions. *)
Definition recvLo (k : kind) (ng : Z) (d : dims) (s : saxis) : Z :=
  match k, snd s with
  | KNode, false => 0 | KNode, true => dim d (fst s) + ng
  | KCcAll, false => 0 | KCcAll, true => dim d (fst s) - 1 + ng
  | KCcFirst, false => ng - 1 | KCcFirst, true => dim d (fst s) - 1 + ng
  end.
Definition sendLo (k : kind) (ng : Z) (d : dims) (s : saxis) : Z :=
  match k, snd s with
  | KNode, false => ng + 1 | KNode, true => dim d (fst s) - 1
  | KCcAll, false => ng | KCcAll, true => dim d (fst s) - 1
  | KCcFirst, false => ng | KCcFirst, true => dim d (fst s) + ng - 2
  end.
Definition sendAt (k : kind) (ng : Z) (d : dims) (s : saxis) (rv : bool) (g : Z) : Z :=
  if rv then sendLo k ng d s + nLayers k ng - 1 - g else sendLo k ng d s + g.

(** The tangential axes of a face in storage order. *)
Definition tan0 (a : axis) : axis := match a with I => J | _ => I end.
Definition tan1 (a : axis) : axis := match a with K => J | _ => K end.
Definition asm (a : axis) (s x y : Z) : pt :=
  match a with I => (s, x, y) | J => (x, s, y) | K => (x, y, s) end.

Definition ax_of (f : Z) : axis := fst (face_saxis f).

Lemma getFaceSlice_asm {V} (v : array3 V) f s x y : 1 <= f <= 6 ->
  getFaceSlice v f s x y = at3 v (asm (ax_of f) s x y).
Proof.
  intros H. apply six_range in H. simpl in H.
  destruct H as [<-|[<-|[<-|[<-|[<-|[<-|[]]]]]]]; reflexivity.
Qed.

Lemma setFaceSlice_at {V} (v : array3 V) f s (g : Z -> Z -> V) p : 1 <= f <= 6 ->
  at3 (setFaceSlice v f s g) p =
  if co p (ax_of f) =? s then g (co p (tan0 (ax_of f))) (co p (tan1 (ax_of f))) else at3 v p.
Proof.
  intros H. apply six_range in H. simpl in H. destruct p as [[i j] k].
  destruct H as [<-|[<-|[<-|[<-|[<-|[<-|[]]]]]]]; reflexivity.
Qed.

Lemma asm_co p a : asm a (co p a) (co p (tan0 a)) (co p (tan1 a)) = p.
Proof. destruct p as [[i j] k], a; reflexivity. Qed.

(** What setComm produces. *)
Definition orientIdx (t : orienter) (sh : Z * Z) (a b : Z) : Z * Z :=
  let sh' := orientShape t sh in
  let b' := if oF1 t then snd sh' - 1 - b else b in
  let a' := if oF0 t then fst sh' - 1 - a else a in
  if oT t then (b', a') else (a', b').
Lemma orientGet_idx {V} t sh (g : Z -> Z -> V) a b :
  orientGet t sh g a b = g (fst (orientIdx t sh a b)) (snd (orientIdx t sh a b)).
Proof. destruct t as [[] [] []]; reflexivity. Qed.

Definition shapeOf (k : kind) (ng : Z) (d : dims) (s : saxis) : Z * Z :=
  (extent k ng d (tan0 (fst s)), extent k ng d (tan1 (fst s))).

(** The reorientation on the face [s] with orientation [o]. *)
Definition orSpec (f : Z) (o : orient) : orienter :=
  match setOrientFunc f (show o) with Some t => t | None => mkOr false false false end.

Definition isSomeO (x : option orienter) := match x with Some _ => true | None => false end.
Definition chk_some (t : saxis * saxis * saxis) : bool :=
  let '(x,y,z) := t in forallb (fun f => isSomeO (setOrientFunc f (show (mk x y z)))) six.
Lemma chk_some_all : forallb chk_some all_orients = true.
Proof. vm_compute. reflexivity. Qed.

Lemma setOrientFunc_some f o : legal o -> 1 <= f <= 6 -> setOrientFunc f (show o) = Some (orSpec f o).
Proof.
  intros L R. unfold orSpec. pose proof (legal_in _ L) as Hin.
  pose proof chk_some_all as C. rewrite forallb_forall in C. specialize (C _ Hin).
  unfold chk_some in C. rewrite forallb_forall in C. specialize (C _ (six_range _ R)). cbv beta in C.
  change (show (mk (o I) (o J) (o K))) with (show o) in C.
  destruct (setOrientFunc f (show o)); [reflexivity|discriminate].
Qed.

Lemma counterAligned_spec f o : 1 <= f <= 6 ->
  counterAligned f (show o) = Some (negb (snd (o (ax_of f)))).
Proof.
  intros R. apply six_range in R. simpl in R.
  destruct R as [<-|[<-|[<-|[<-|[<-|[<-|[]]]]]]]; unfold ax_of; cbn [face_saxis fst];
  match goal with |- context [o ?a] => destruct (o a) as [x s] eqn:E end;
  unfold counterAligned, show; cbn [faceToOrientIndex String.get]; rewrite E;
  destruct x, s; reflexivity.
Qed.

Definition good (procs : list (list Z)) (ng nblk : Z) (d : dims) (f nb : Z) (o : orient) (c : commFace) : Prop :=
  cf_nface c = f /\ cf_neighbor c = nb /\ cf_rank c = commRank procs nb /\
  cf_tagS c = nb * 6 + saxis_face (flip (act o (face_saxis f))) /\
  cf_tagR c = nblk * 6 + f /\ cf_orient c = orSpec f o /\
  (forall k, sliceShape k c = shapeOf k ng d (face_saxis f)) /\
  (forall k, recvSlices k c = zrange (recvLo k ng d (face_saxis f)) (recvLo k ng d (face_saxis f) + nLayers k ng)) /\
  (forall k g, 0 <= g < nLayers k ng ->
     nth (Z.to_nat g) (sendSlices k c) 0 = sendAt k ng d (face_saxis f) (negb (snd (o (ax_of f)))) g).

Lemma first1_zrange a b : a < b -> first1 (zrange a b) = Some [a].
Proof. intros H. rewrite zrange_cons by auto. reflexivity. Qed.
Lemma last1_zrange a b : a < b -> last1 (zrange a b) = Some [b - 1].
Proof. intros H. unfold last1. rewrite (zrange_snoc a b) by auto. rewrite rev_app_distr. reflexivity. Qed.
Lemma map_add_minus1 c a b : map (fun i => c + i - 1) (zrange a b) = zrange (c - 1 + a) (c - 1 + b).
Proof. rewrite <- zrange_map_add. apply map_ext. intros; lia. Qed.
Lemma zrange_one a : zrange a (a + 1) = [a].
Proof. rewrite zrange_cons by lia. unfold zrange. replace (a + 1 - (a + 1)) with 0 by lia. reflexivity. Qed.

Lemma revif_nth rv a b g : 0 <= g < b - a ->
  nth (Z.to_nat g) (revif rv (zrange a b)) 0 = if rv then b - 1 - g else a + g.
Proof. intros H. unfold revif. destruct rv; [apply rev_nth_zrange|apply zrange_nth]; auto. Qed.

Lemma setComm_good procs ng nblk d f nb o : 0 < ng -> legal o -> 1 <= nface f <= 6 ->
  orientation f = Some (show o) ->
  exists c, setComm procs ng nblk d f nb = Some c /\ good procs ng nblk d (nface f) nb o c.
Proof.
  intros Hng L R HO. unfold setComm. rewrite HO.
  rewrite setOrientFunc_some, neighborNface_spec, counterAligned_spec by auto.
  unfold good. set (rv := negb (snd (o (ax_of (nface f))))) in *. clearbody rv.
  set (os := orSpec _ _) in *. set (nn := saxis_face _) in *. clearbody os nn.
  generalize dependent (nface f). intros n R. clear HO.
  apply six_range in R. simpl in R.
  destruct R as [<-|[<-|[<-|[<-|[<-|[<-|[]]]]]]]; unfold ccSendFirstHalo, ccRecvFirstHalo;
   cbn [nodeSendSlices nodeRecvSlices ccSendAllSlices ccRecvAllSlices nodeShape ccShape existsb Z.eqb Pos.eqb orb];
   rewrite ?map_add_minus1, ?zrange_map_add, ?first1_zrange, ?last1_zrange by lia;
   (eexists; split; [reflexivity|]);
   repeat split; cbn [cf_nface cf_neighbor cf_rank cf_tagS cf_tagR cf_orient];
   try (intros []; reflexivity);
   try (intros []; cbn [recvSlices cf_nodeRecv cf_ccRecv cf_ccRecv1 recvLo face_saxis snd fst dim nLayers];
        [f_equal; lia | f_equal; lia | rewrite zrange_one; f_equal; lia]);
   try (intros [] g Hg; cbn [sendSlices cf_nodeSend cf_ccSend cf_ccSend1 nLayers] in *;
        [rewrite revif_nth by lia; unfold sendAt; cbn [sendLo face_saxis snd fst dim nLayers]; destruct rv; lia
        |rewrite revif_nth by lia; unfold sendAt; cbn [sendLo face_saxis snd fst dim nLayers]; destruct rv; lia
        |replace g with 0 by lia; unfold sendAt; cbn [nth Z.to_nat sendLo face_saxis snd fst dim nLayers]; destruct rv; lia]).
Qed.
