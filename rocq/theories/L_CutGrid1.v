(** Lemmas for C137, first part: the grid after the blocks of a path have been cut one after the other. *)
From Coq Require Import ZArith String Ascii List Bool Lia Reals.
From Verif Require Import M_Topology S_Topology L_Topology P_Topology M_Cut S_Cut L_Cut L_Cut2 P_Cut P_CutPath M_CutGrid S_CutGrid.
Import ListNotations.
Open Scope Z_scope.

Definition saxis_dec (s t : saxis) : {s = t} + {s <> t}.
Proof. decide equality; [apply Bool.bool_dec|decide equality]. Defined.
Definition axis_dec (s t : axis) : {s = t} + {s <> t}.
Proof. decide equality. Defined.

Lemma faceNo_inj s t : faceNo s = faceNo t -> s = t.
Proof. destruct s as [[] []], t as [[] []]; cbn; intros; congruence || lia. Qed.
Lemma face_of_no k : 1 <= k <= 6 -> exists s, k = faceNo s.
Proof.
  intros H. assert (D : k = 1 \/ k = 2 \/ k = 3 \/ k = 4 \/ k = 5 \/ k = 6) by lia.
  destruct D as [->|[->|[->|[->|[->| ->]]]]];
  [exists (I,false)|exists (I,true)|exists (J,false)|exists (J,true)|exists (S_Topology.K,false)|exists (S_Topology.K,true)]; reflexivity.
Qed.
Lemma fac_fun mb n k g h : fac mb n k g -> fac mb n k h -> g = h.
Proof. intros (b & B & _ & E) (c & C & _ & F). rewrite (blk_fun _ _ _ _ B C) in E. congruence. Qed.
Lemma fac_range mb n k g : fac mb n k g -> 1 <= k <= 6.
Proof. intros (b & _ & K & _). exact K. Qed.
Lemma fac_ex mb n b s : wfGrid mb -> blk mb n b -> exists g, fac mb n (faceNo s) g.
Proof.
  intros W Hb. destruct (faceOf_ex b (faceNo s) (faceNo_range s) (wf_len _ _ _ W Hb)) as [g Eg].
  exists g. apply fac_faceOf. eauto.
Qed.
Lemma fac_blk mb n k g : fac mb n k g -> exists b, blk mb n b.
Proof. intros (b & B & _). eauto. Qed.

Lemma flip_flip s : S_Topology.flip (S_Topology.flip s) = s.
Proof. destruct s as [a b]. unfold S_Topology.flip. cbn. now rewrite negb_involutive. Qed.

Lemma conn_fun mb A s B s' o C t o' : conn mb A s B s' o -> conn mb A s C t o' -> B = C /\ s' = t /\ forall c, o c = o' c.
Proof.
  intros (g & F & N & _ & O & ->) (g' & F' & N' & _ & O' & ->). rewrite (fac_fun _ _ _ _ _ F F') in *.
  assert (B = C) by congruence. assert (S : show o = show o') by congruence. pose proof (show_inj _ _ S) as V.
  split; [assumption|]. split; [|exact V]. unfold act. now rewrite V.
Qed.
Lemma conn_endsOn mb A s B s' o g : conn mb A s B s' o -> fac mb A (faceNo s) g -> endsOn g s B (faceNo s').
Proof.
  intros (h & F & N & L & O & ->) G. rewrite (fac_fun _ _ _ _ _ G F). split; [exact N|]. exists o.
  split; [exact L|]. split; [exact O|]. apply outward_faceNo.
Qed.
Lemma closed_conn mb A s g B : closed mb -> fac mb A (faceNo s) g -> neighbor (topo g) = Some B ->
  exists s' o, conn mb A s B s' o.
Proof. intros C F N. destruct (C _ _ _ _ F N) as (_ & o & L & O). exists (S_Topology.flip (act o s)), o, g. auto. Qed.
Lemma endsOn_conn mb A s g B s' : fac mb A (faceNo s) g -> endsOn g s B (faceNo s') -> exists o, conn mb A s B s' o.
Proof.
  intros F (N & o & L & O & W). exists o, g. repeat split; auto. apply outward_inj in W. now apply faceNo_inj.
Qed.

(** Positions in a path. *)
Fixpoint posOf (X : Z) (l : list cutState) : option (nat * axis * bool) :=
  match l with
  | [] => None
  | (A, a, r) :: t => if X =? A then Some (O, a, r)
                      else match posOf X t with Some (j, a, r) => Some (S j, a, r) | None => None end
  end.
Lemma posOf_nth X l : forall j a r, posOf X l = Some (j, a, r) -> nth_error l j = Some (X, a, r).
Proof.
  induction l as [|[[A b] q] t IH]; intros j a r H; [discriminate|]. cbn in H. destruct (Z.eqb_spec X A) as [->|N].
  - injection H as <- <- <-. reflexivity.
  - destruct (posOf X t) as [[[j' a'] r']|] eqn:E; [|discriminate]. injection H as <- <- <-. cbn. now apply IH.
Qed.
Lemma posOf_none X l : posOf X l = None <-> ~ In X (map blockOf l).
Proof.
  induction l as [|[[A b] q] t IH]; cbn; [tauto|]. destruct (Z.eqb_spec X A) as [->|N].
  - split; [discriminate|tauto].
  - destruct (posOf X t) as [[[j' a'] r']|]; [|intuition]. split; [discriminate|]. intros H. exfalso. intuition congruence.
Qed.
Lemma posOf_in X a r l : NoDup (map blockOf l) -> In (X, a, r) l -> exists j, posOf X l = Some (j, a, r).
Proof.
  induction l as [|[[A b] q] t IH]; intros ND H; [easy|]. cbn in ND. inversion ND as [|? ? Na Nt]; subst. cbn.
  destruct H as [E|H].
  - injection E as -> -> ->. rewrite Z.eqb_refl. eauto.
  - destruct (Z.eqb_spec X A) as [->|N].
    + exfalso. apply Na. apply in_map_iff. exists (A, a, r). auto.
    + destruct (IH Nt H) as [j ->]. eauto.
Qed.
Lemma nth_posOf X a r l : NoDup (map blockOf l) -> forall j, nth_error l j = Some (X, a, r) -> posOf X l = Some (j, a, r).
Proof.
  induction l as [|[[A b] q] t IH]; intros ND [|j] H; cbn in *; try discriminate.
  - injection H as -> -> ->. now rewrite Z.eqb_refl.
  - inversion ND as [|? ? Na Nt]; subst. destruct (Z.eqb_spec X A) as [->|N].
    + exfalso. apply Na. apply nth_error_In in H. apply in_map_iff. exists (A, a, r). auto.
    + rewrite (IH Nt j H). reflexivity.
Qed.
Lemma posOf_snoc X l A a r : posOf X (l ++ [(A, a, r)]) =
  match posOf X l with Some p => Some p | None => if X =? A then Some (length l, a, r) else None end.
Proof.
  induction l as [|[[B b] q] t IH]; cbn; [destruct (X =? A); reflexivity|].
  destruct (X =? B); [reflexivity|]. rewrite IH. destruct (posOf X t) as [[[j' a'] r']|]; [reflexivity|].
  destruct (X =? A); reflexivity.
Qed.

Lemma same_refl g : sameCondition g g.
Proof. repeat split; auto. Qed.
Lemma same_trans g h i : sameCondition g h -> sameCondition h i -> sameCondition g i.
Proof.
  intros (a1 & a2 & a3 & a4 & a5) (b1 & b2 & b3 & b4 & b5). split; [congruence|]. split; [congruence|]. split; [congruence|].
  split; [congruence|]. intros P. destruct (a5 P) as [x y]. rewrite a2 in P. destruct (b5 P). split; congruence.
Qed.
Lemma same_ready g h : sameCondition g h -> periodicReady h -> periodicReady g.
Proof.
  intros (a1 & a2 & a3 & a4 & a5) P Q. destruct (a5 Q) as [x y]. rewrite a2 in Q. destruct (P Q) as (u & v & w & E & F).
  exists u, v, w. split; [congruence|exact F].
Qed.

Lemma snoc_idx {T} (l : list T) x j y : nth_error (l ++ [x]) j = Some y -> (length l <= j)%nat -> j = length l /\ y = x.
Proof.
  intros H L. rewrite nth_error_app2 in H by exact L. destruct (j - length l)%nat as [|m] eqn:E; cbn in H.
  - split; [lia|congruence].
  - destruct m; discriminate.
Qed.

Lemma NoDup_app_l {T} (l r : list T) : NoDup (l ++ r) -> NoDup l.
Proof.
  induction l as [|x t IH]; intros H; [constructor|]. cbn in H. inversion H as [|? ? H1 H2]; subst. constructor; [|auto].
  intros X. apply H1, in_or_app. now left.
Qed.

Section Cutting.
Variable mb0 : list gblock.
Let N := Z.of_nat (length mb0).
Hypothesis W0 : wfGrid mb0.
Hypothesis C0 : closed mb0.
Hypothesis P0 : paired mb0.
Hypothesis R0 : forall n k g, fac mb0 n k g -> periodicReady g.
Variables n0 idx : Z.
Hypothesis Hidx : 0 < idx < n0 - 1.
Variable path : list cutState.
Hypothesis ND : NoDup (map blockOf path).
Hypothesis InP : forall A a r, In (A, a, r) path -> exists b, blk mb0 A b /\ points b a = n0.
Hypothesis Lat : forall A a r s B s' o, In (A, a, r) path -> fst s <> a -> conn mb0 A s B s' o ->
  In (B, fst (o a), if snd (o a) then r else negb r) path.

Lemma cutAt_range r : 0 < cutAt n0 idx r < n0 - 1.
Proof. unfold cutAt. destruct r; lia. Qed.

(** The block a joint leads to, once the blocks of [done] have been cut. *)
Definition newNbr (done : list cutState) (B : Z) (s' : saxis) : Z :=
  match posOf B done with
  | Some (j, a, _) => if saxis_dec s' (a, true) then N + Z.of_nat j else B
  | None => B
  end.

Definition keeps (done : list cutState) (X : Z) (s : saxis) (g0 g : gface) : Prop :=
  sameCondition g g0 /\ (neighbor (topo g0) = None -> neighbor (topo g) = None) /\
  (forall B s' o, conn mb0 X s B s' o -> neighbor (topo g) = Some (newNbr done B s')).

Definition oldFace (done : list cutState) (X : Z) (s : saxis) (g0 g : gface) : Prop :=
  match posOf X done with
  | Some (j, a, _) => if saxis_dec s (a, true) then interiorTo (N + Z.of_nat j) g else keeps done X s g0 g
  | None => keeps done X s g0 g
  end.

Definition newFace (done : list cutState) (A : Z) (a : axis) (s : saxis) (g0 g : gface) : Prop :=
  if saxis_dec s (a, false) then interiorTo A g
  else if saxis_dec s (a, true) then keeps done A s g0 g
  else sameCondition g g0 /\ neighbor (topo g) = None.

Record Inv (done : list cutState) (mb : list gblock) : Prop := {
  i_len : Z.of_nat (length mb) = N + Z.of_nat (length done);
  i_wf : wfGrid mb;
  i_geo_old : forall X b0, blk mb0 X b0 -> exists b, blk mb X b /\ (forall p, node b p = node b0 p) /\
     forall c, points b c = match posOf X done with
                            | Some (_, a, r) => if axis_eqb c a then cutAt n0 idx r + 1 else points b0 c
                            | None => points b0 c end;
  i_geo_new : forall j A a r b0, nth_error done j = Some (A, a, r) -> blk mb0 A b0 ->
     exists b, blk mb (N + Z.of_nat j) b /\ (forall p, node b p = node b0 (shift a (cutAt n0 idx r) p)) /\
     forall c, points b c = if axis_eqb c a then points b0 a - cutAt n0 idx r else points b0 c;
  i_face_old : forall X s g0, fac mb0 X (faceNo s) g0 -> exists g, fac mb X (faceNo s) g /\ oldFace done X s g0 g;
  i_face_new : forall j A a r s g0, nth_error done j = Some (A, a, r) -> fac mb0 A (faceNo s) g0 ->
     exists g, fac mb (N + Z.of_nat j) (faceNo s) g /\ newFace done A a s g0 g }.

Lemma nth_done_in done rest j x : path = done ++ rest -> nth_error done j = Some x -> In x path.
Proof. intros -> H. apply in_or_app. left. eapply nth_error_In; eauto. Qed.

Lemma blk_of_lt mb X : 0 <= X < Z.of_nat (length mb) -> exists b, blk mb X b.
Proof. apply blk_ex. Qed.

Lemma newNbr_range done rest B s' b : path = done ++ rest -> blk mb0 B b -> 0 <= newNbr done B s' < N + Z.of_nat (length done).
Proof.
  intros E Hb. apply blk_lt in Hb. fold N in Hb. unfold newNbr. destruct (posOf B done) as [[[j a] r]|] eqn:Q; [|lia].
  apply posOf_nth in Q. assert (j < length done)%nat by (apply nth_error_Some; congruence).
  destruct (saxis_dec s' (a, true)); lia.
Qed.

(** Every face of an intermediate grid is one of the two kinds. *)
Lemma face_kinds done rest mb X s g : path = done ++ rest -> Inv done mb -> fac mb X (faceNo s) g ->
  (exists g0, X < N /\ fac mb0 X (faceNo s) g0 /\ oldFace done X s g0 g) \/
  (exists j A a r g0, X = N + Z.of_nat j /\ nth_error done j = Some (A, a, r) /\ fac mb0 A (faceNo s) g0 /\ newFace done A a s g0 g).
Proof.
  intros E V F. destruct (fac_blk _ _ _ _ F) as [b Hb]. pose proof (blk_lt _ _ _ Hb) as L. rewrite (i_len _ _ V) in L.
  destruct (Z_lt_le_dec X N) as [L1|L1].
  - left. destruct (blk_ex mb0 X) as [b0 Hb0]; [fold N; lia|]. destruct (fac_ex mb0 X b0 s W0 Hb0) as [g0 F0].
    destruct (i_face_old _ _ V _ _ _ F0) as (g' & F' & O). rewrite (fac_fun _ _ _ _ _ F F'). eauto.
  - right. destruct (nth_error done (Z.to_nat (X - N))) as [[[A a] r]|] eqn:Q.
    2:{ apply nth_error_None in Q. lia. }
    destruct (InP A a r) as (b0 & Hb0 & _); [eapply nth_done_in; eauto|].
    destruct (fac_ex mb0 A b0 s W0 Hb0) as [g0 F0]. destruct (i_face_new _ _ V _ _ _ _ s g0 Q F0) as (g' & F' & O).
    replace (N + Z.of_nat (Z.to_nat (X - N))) with X in F' by lia. rewrite (fac_fun _ _ _ _ _ F F').
    exists (Z.to_nat (X - N)), A, a, r, g0. split; [lia|auto].
Qed.

Lemma keeps_closed done rest mb X s g0 g : path = done ++ rest -> Inv done mb -> fac mb0 X (faceNo s) g0 -> keeps done X s g0 g ->
  forall B, neighbor (topo g) = Some B -> (exists b, blk mb B b) /\ exists o, legal o /\ orientation (topo g) = Some (show o).
Proof.
  intros E V F0 (S & Z0 & K) B HB. destruct (neighbor (topo g0)) as [B0|] eqn:N0.
  2:{ rewrite (Z0 eq_refl) in HB. discriminate. }
  destruct (closed_conn _ _ _ _ _ C0 F0 N0) as (s' & o & Cn). pose proof (K _ _ _ Cn) as Q.
  assert (B = newNbr done B0 s') as -> by congruence.
  destruct (C0 _ _ _ _ F0 N0) as ((bb & Hbb) & o' & L & O). split.
  - apply blk_ex. rewrite (i_len _ _ V). eapply newNbr_range; eauto.
  - exists o'. split; [exact L|]. destruct S as (_ & _ & _ & S & _). congruence.
Qed.

Lemma interior_closed mb B g : 0 <= B < Z.of_nat (length mb) -> interiorTo B g ->
  forall C, neighbor (topo g) = Some C -> (exists b, blk mb C b) /\ exists o, legal o /\ orientation (topo g) = Some (show o).
Proof.
  intros L (H1 & H2 & _) C HC. assert (C = B) as -> by congruence. split; [now apply blk_ex|].
  eexists. split; [|exact H2]. intros x y. cbn. auto.
Qed.

Lemma inv_closed done rest mb : path = done ++ rest -> Inv done mb -> closed mb.
Proof.
  intros E V X k g B F HB. destruct (face_of_no k (fac_range _ _ _ _ F)) as [s ->].
  assert (LN := i_len _ _ V).
  destruct (face_kinds _ _ _ _ _ _ E V F) as [(g0 & LX & F0 & O)|(j & A & a & r & g0 & -> & Q & F0 & O)].
  - unfold oldFace in O. destruct (posOf X done) as [[[j a] r]|] eqn:Q; [|eapply keeps_closed; eauto].
    destruct (saxis_dec s (a, true)); [|eapply keeps_closed; eauto].
    eapply interior_closed; [|exact O|exact HB]. apply posOf_nth in Q.
    assert (j < length done)%nat by (apply nth_error_Some; congruence). lia.
  - unfold newFace in O. destruct (saxis_dec s (a, false)).
    + eapply interior_closed; [|exact O|exact HB]. destruct (fac_blk _ _ _ _ F0) as [b0 Hb0]. apply blk_lt in Hb0. fold N in Hb0. lia.
    + destruct (saxis_dec s (a, true)); [eapply keeps_closed; eauto|]. destruct O as [_ O]. congruence.
Qed.

Lemma inv_ready done rest mb : path = done ++ rest -> Inv done mb -> forall X k g, fac mb X k g -> periodicReady g.
Proof.
  intros E V X k g F. destruct (face_of_no k (fac_range _ _ _ _ F)) as [s ->].
  assert (IR : forall B, interiorTo B g -> periodicReady g) by (intros B (_ & _ & T & _) P; rewrite T in P; discriminate).
  destruct (face_kinds _ _ _ _ _ _ E V F) as [(g0 & LX & F0 & O)|(j & A & a & r & g0 & -> & Q & F0 & O)].
  - assert (KR : keeps done X s g0 g -> periodicReady g) by (intros (S & _); eapply same_ready; eauto).
    unfold oldFace in O. destruct (posOf X done) as [[[j a] r]|]; [|auto]. destruct (saxis_dec s (a, true)); eauto.
  - assert (KR : sameCondition g g0 -> periodicReady g) by (intros S; eapply same_ready; eauto).
    unfold newFace in O. destruct (saxis_dec s (a, false)); [eauto|]. destruct (saxis_dec s (a, true)); apply KR, O.
Qed.

(** Joined sides of path blocks: lateral to lateral, along to along. *)
Lemma along A a r s B a' r' s' o : In (A, a, r) path -> In (B, a', r') path -> conn mb0 A s B s' o -> fst s = a -> fst s' = a'.
Proof.
  intros IA IB Cn E. destruct (axis_dec (fst s') a') as [|Ne]; [assumption|exfalso].
  destruct (P0 _ _ _ _ _ Cn) as (_ & o' & Iv & Cn').
  pose proof (Lat _ _ _ _ _ _ _ IB Ne Cn') as IA'.
  destruct (posOf_in _ _ _ _ ND IA) as [j Q]. destruct (posOf_in _ _ _ _ ND IA') as [j' Q'].
  assert (Ea : a = fst (o' a')) by congruence.
  destruct Cn' as (g & _ & _ & L & _ & Es). assert (Fs : fst s = fst (o' (fst s'))).
  { rewrite Es. unfold S_Topology.flip, act. cbn. destruct (snd s'); reflexivity. }
  apply Ne. symmetry. apply L. congruence.
Qed.

(** Only the partner of the far side changes its expectation when a block is cut. *)
Lemma newNbr_snoc done A a r B s' : posOf A done = None ->
  newNbr (done ++ [(A, a, r)]) B s' =
    if Z.eqb B A then (if saxis_dec s' (a, true) then N + Z.of_nat (length done) else B) else newNbr done B s'.
Proof.
  intros H. unfold newNbr. rewrite posOf_snoc. destruct (Z.eqb_spec B A) as [->|Ne].
  - rewrite H. reflexivity.
  - destruct (posOf B done) as [[[j b] q]|]; reflexivity.
Qed.

Lemma keeps_snoc done A a r X s g0 g : posOf A done = None ->
  (forall o, ~ conn mb0 X s A (a, true) o) -> keeps done X s g0 g -> keeps (done ++ [(A, a, r)]) X s g0 g.
Proof.
  intros H NC (S & Z0 & K). split; [exact S|]. split; [exact Z0|]. intros B s' o Cn. rewrite (K _ _ _ Cn). f_equal.
  rewrite newNbr_snoc by assumption. destruct (Z.eqb_spec B A) as [->|Ne]; [|reflexivity].
  destruct (saxis_dec s' (a, true)) as [->|N1]; [exfalso; eapply NC; eauto|]. unfold newNbr. now rewrite H.
Qed.

Definition flagsFor (A : Z) (a : axis) (flags : list bool) : Prop :=
  length flags = 6%nat /\ forall s g0, fac mb0 A (faceNo s) g0 ->
    (nth_error flags (Z.to_nat (faceNo s - 1)) = Some true <-> fst s = a \/ neighbor (topo g0) = None).

Lemma step done rest A a r mb : path = done ++ (A, a, r) :: rest -> Inv done mb ->
  exists b mb' flags, blk mb A b /\ points b a = n0 /\
    cutBlock mb A (letter a) (cutAt n0 idx r) = Some (mb', [(A, flags); (N + Z.of_nat (length done), flags)]) /\
    flagsFor A a flags /\ Inv (done ++ [(A, a, r)]) mb'.
Proof.
  intros E V. assert (IA : In (A, a, r) path) by (rewrite E; apply in_or_app; right; now left).
  assert (PA : posOf A done = None).
  { apply posOf_none. intros H. rewrite E, map_app in ND. cbn [map blockOf fst] in ND. apply NoDup_remove_2 in ND. apply ND, in_or_app. now left. }
  destruct (InP _ _ _ IA) as (b0 & Hb0 & Pb0).
  destruct (i_geo_old _ _ V _ _ Hb0) as (b & Hb & Nb & Pb). rewrite PA in Pb.
  assert (LA := blk_lt _ _ _ Hb0). fold N in LA.
  destruct (fac_ex mb0 A b0 (a, true) W0 Hb0) as [far0 Ff0].
  destruct (i_face_old _ _ V _ _ _ Ff0) as (far & Ff & Of). unfold oldFace in Of. rewrite PA in Of.
  destruct Of as (Sf & Zf & Kf).
  assert (CL := inv_closed _ _ _ E V). assert (RD := inv_ready _ _ _ E V).
  assert (CR : 0 < cutAt n0 idx r < points b a - 1) by (rewrite Pb, Pb0; apply cutAt_range).
  destruct (C76_cut_block mb A b a (cutAt n0 idx r) far (i_wf _ _ V) CL Hb CR (RD A) Ff)
    as (mb' & ff & lo & hi & EC & L' & W' & Hlo & Hhi & PL & PH & NL & NH & GO & (gi & Fgi & Igi) & (gj & Fgj & Igj) & (gf & Fgf & Sgf & Ngf) & REL & KEEP & LATF & (flags & Eff & Lfl & FL)).
  assert (Lm : Z.of_nat (length mb) = N + Z.of_nat (length done)) by apply (i_len _ _ V).
  rewrite Lm in *.
  (* the partner of the far side, now *)
  assert (PART : forall X s, endsOn far (a, true) X (faceNo s) ->
            exists B o, conn mb0 A (a, true) B s o /\ X = newNbr done B s /\ (B, s) <> (A, (a, true))).
  { intros X s (HN & o & Lo & Oo & Wo). destruct (neighbor (topo far0)) as [B0|] eqn:N0; [|rewrite (Zf eq_refl) in HN; discriminate].
    destruct (closed_conn _ _ _ _ _ C0 Ff0 N0) as (t & o' & Cn). rewrite (Kf _ _ _ Cn) in HN.
    assert (t = s).
    { destruct Cn as (h & Fh & _ & _ & Oh & ->). rewrite (fac_fun _ _ _ _ _ Fh Ff0) in Oh.
      destruct Sf as (_ & _ & _ & So & _). assert (Sh : show o = show o') by congruence.
      apply outward_inj in Wo. apply faceNo_inj in Wo. rewrite Wo. unfold act. now rewrite (show_inj _ _ Sh). }
    subst t. exists B0, o'. split; [exact Cn|]. split; [congruence|].
    destruct (P0 _ _ _ _ _ Cn) as [Ne _]. congruence. }
  (* a face that stays as it is *)
  assert (STAY : forall X s g, fac mb X (faceNo s) g -> (X, s) <> (A, (a, true)) ->
     (forall B o, conn mb0 A (a, true) B s o -> X <> newNbr done B s) -> fac mb' X (faceNo s) g).
  { intros X s g F Ne Np. apply KEEP; [exact F| |].
    - intros Q. assert (X = A) by congruence. assert (faceNo s = faceNo (a, true)) by congruence. apply Ne. f_equal; [assumption|now apply faceNo_inj].
    - intros EO. destruct (PART _ _ EO) as (B & o & Cn & EX & _). exact (Np _ _ Cn EX). }
  (* the partner's face *)
  assert (LINK : forall B s o g, conn mb0 A (a, true) B s o -> fac mb (newNbr done B s) (faceNo s) g ->
     exists g', fac mb' (newNbr done B s) (faceNo s) g' /\ neighbor (topo g') = Some (N + Z.of_nat (length done)) /\ sameCondition g' g).
  { intros B s o g Cn F. apply REL; [| |exact F].
    - destruct Cn as (h & Fh & Nh & Lo & Oh & Es). rewrite (fac_fun _ _ _ _ _ Fh Ff0) in *. split.
      + apply Kf with (o := o). exists far0. auto 6.
      + exists o. split; [exact Lo|]. split; [destruct Sf as (_ & _ & _ & So & _); congruence|]. rewrite Es. apply outward_faceNo.
    - destruct (P0 _ _ _ _ _ Cn) as [Ne _]. intros Q. assert (Q1 : newNbr done B s = A) by congruence. assert (Q2 : s = (a, true)) by (apply faceNo_inj; congruence).
      unfold newNbr in Q1. destruct (posOf B done) as [[[j a'] r']|] eqn:PB; [|apply Ne; congruence].
      destruct (saxis_dec s (a', true)); [lia|]. apply Ne; congruence. }
  assert (PAIR : forall X s o, conn mb0 X s A (a, true) o -> exists o', conn mb0 A (a, true) X s o').
  { intros X s o Cn. destruct (P0 _ _ _ _ _ Cn) as (_ & o' & _ & Cn'). eauto. }
  exists b, mb', flags. split; [exact Hb|]. split; [rewrite Pb; exact Pb0|]. split; [rewrite EC, Eff; reflexivity|]. split.
  { split; [exact Lfl|]. intros s g0 F0. destruct (i_face_old _ _ V _ _ _ F0) as (g & F & O). unfold oldFace in O. rewrite PA in O. destruct O as (S & Z0 & K).
    assert (NI : neighbor (topo g) = None <-> neighbor (topo g0) = None).
    { split; [|exact Z0]. intros H. destruct (neighbor (topo g0)) as [B0|] eqn:N0; [|reflexivity].
      destruct (closed_conn _ _ _ _ _ C0 F0 N0) as (t & o & Cn). rewrite (K _ _ _ Cn) in H. discriminate. }
    assert (AX : fst s = a <-> faceNo s = faceNo (a, true) \/ faceNo s = faceNo (a, false)).
    { split; [intros <-; destruct s as [x []]; auto|intros [H|H]; apply faceNo_inj in H; rewrite H; reflexivity]. }
    rewrite AX, <- NI. rewrite (FL) with (g := g) (2 := F).
    - tauto.
    - intros k h EO Fh Nh. destruct (face_of_no k (fac_range _ _ _ _ Fh)) as [t ->].
      destruct (PART _ _ EO) as (B & o & Cn & EX & NeB).
      destruct (P0 _ _ _ _ _ Cn) as (_ & o' & _ & Cn').
      destruct (face_kinds _ _ _ _ _ _ E V Fh) as [(h0 & LX & Fh0 & Oh)|(j & A1 & a1 & r1 & h0 & EA & _)]; [|lia].
      unfold oldFace in Oh. rewrite PA in Oh. destruct Oh as (_ & _ & Kh).
      assert (B = A).
      { unfold newNbr in EX. destruct (posOf B done) as [[[j a'] r']|]; [|congruence]. destruct (saxis_dec t (a', true)); [lia|congruence]. }
      subst B. rewrite (Kh _ _ _ Cn') in Nh. discriminate. }
  (* the invariant *)
  assert (SN : forall X, X <> A -> posOf X (done ++ [(A, a, r)]) = posOf X done).
  { intros X Ne. rewrite posOf_snoc. replace (X =? A) with false by (symmetry; now apply Z.eqb_neq). destruct (posOf X done); reflexivity. }
  assert (SA : posOf A (done ++ [(A, a, r)]) = Some (length done, a, r)) by (rewrite posOf_snoc, PA, Z.eqb_refl; reflexivity).
  assert (PN : forall o, conn mb0 A (a, true) A (a, true) o -> False) by (intros o Cn; destruct (P0 _ _ _ _ _ Cn) as [Ne _]; congruence).
  assert (KLINK : forall X s g0 g g' o, conn mb0 A (a, true) X s o -> fac mb0 X (faceNo s) g0 -> keeps done X s g0 g ->
     neighbor (topo g') = Some (N + Z.of_nat (length done)) -> sameCondition g' g -> keeps (done ++ [(A, a, r)]) X s g0 g').
  { intros X s g0 g g' o Cn F0 (S & Z0 & K) Ng' Sg'. destruct (P0 _ _ _ _ _ Cn) as (_ & o' & _ & Cn').
    split; [eapply same_trans; eauto|]. split.
    - intros H. destruct Cn' as (h & Fh & Nh & _). rewrite (fac_fun _ _ _ _ _ F0 Fh) in H. congruence.
    - intros B t q Cq. destruct (conn_fun _ _ _ _ _ _ _ _ _ Cq Cn') as (-> & -> & _). rewrite Ng'. f_equal.
      rewrite newNbr_snoc, Z.eqb_refl by exact PA. destruct (saxis_dec (a, true) (a, true)); [reflexivity|congruence]. }
  constructor.
  - rewrite app_length, L'. cbn [length]. lia.
  - exact W'.
  - intros X bx Hx. destruct (Z.eq_dec X A) as [->|Ne].
    + rewrite (blk_fun _ _ _ _ Hx Hb0). exists lo. split; [exact Hlo|]. split; [intros p; rewrite NL; apply Nb|].
      intros c. rewrite PL, SA. destruct (axis_eqb c a); [reflexivity|apply Pb].
    + destruct (i_geo_old _ _ V _ _ Hx) as (b1 & Hb1 & Nb1 & Pb1). destruct (GO _ _ Ne Hb1) as (b2 & Hb2 & Pb2 & Nb2).
      exists b2. split; [exact Hb2|]. split; [intros p; rewrite Nb2; apply Nb1|]. intros c. rewrite Pb2, Pb1, SN by exact Ne. reflexivity.
  - intros j A1 a1 r1 bx Q Hx. destruct (Nat.lt_ge_cases j (length done)) as [Lj|Lj].
    + rewrite nth_error_app1 in Q by exact Lj. destruct (i_geo_new _ _ V _ _ _ _ _ Q Hx) as (b1 & Hb1 & Nb1 & Pb1).
      assert (Ne : N + Z.of_nat j <> A) by lia. destruct (GO _ _ Ne Hb1) as (b2 & Hb2 & Pb2 & Nb2).
      exists b2. split; [exact Hb2|]. split; [intros p; rewrite Nb2; apply Nb1|]. intros c. rewrite Pb2. apply Pb1.
    + destruct (snoc_idx _ _ _ _ Q Lj) as [-> Q1]. injection Q1 as -> -> ->.
      rewrite (blk_fun _ _ _ _ Hx Hb0). exists hi. split; [exact Hhi|]. split; [intros p; rewrite NH; apply Nb|].
      intros c. rewrite PH. destruct (axis_eqb c a); [rewrite Pb; reflexivity|apply Pb].
  - intros X s g0 F0. destruct (i_face_old _ _ V _ _ _ F0) as (g & F & O). destruct (fac_blk _ _ _ _ F0) as [bx Hx].
    assert (LX := blk_lt _ _ _ Hx). fold N in LX.
    assert (DEC : (exists o, conn mb0 A (a, true) X s o) \/ forall o, ~ conn mb0 A (a, true) X s o).
    { destruct (neighbor (topo far0)) as [B0|] eqn:N0.
      - destruct (closed_conn _ _ _ _ _ C0 Ff0 N0) as (t & o & Cn). destruct (Z.eq_dec X B0) as [->|Ne].
        + destruct (saxis_dec s t) as [->|Ne]; [left; eauto|]. right. intros o' Cn'. apply Ne.
          destruct (conn_fun _ _ _ _ _ _ _ _ _ Cn Cn') as (_ & Q & _). congruence.
        + right. intros o' Cn'. apply Ne. destruct (conn_fun _ _ _ _ _ _ _ _ _ Cn Cn') as (Q & _). congruence.
      - right. intros o' (h & Fh & Nh & _). rewrite (fac_fun _ _ _ _ _ Fh Ff0) in Nh. congruence. }
    destruct (Z.eq_dec X A) as [->|NeA].
    + unfold oldFace in O |- *. rewrite PA in O. rewrite SA.
      destruct (saxis_dec s (a, true)) as [->|Ns]; [exists gi; auto|].
      destruct DEC as [(o & Cn)|NC].
      * assert (EN : newNbr done A s = A) by (unfold newNbr; now rewrite PA).
        destruct (LINK A s o g Cn) as (g' & F' & Ng' & Sg'); [rewrite EN; exact F|]. rewrite EN in F'. exists g'. split; [exact F'|]. eapply KLINK; eauto.
      * exists g. split.
        -- apply STAY; [exact F|congruence|]. intros B o Cn HX.
           assert (B = A). { unfold newNbr in HX. destruct (posOf B done) as [[[j a'] r']|]; [|congruence]. destruct (saxis_dec s (a', true)); [lia|congruence]. }
           subst B. eapply NC; eauto.
        -- apply keeps_snoc; [exact PA| |exact O]. intros o Cn. destruct (PAIR _ _ _ Cn) as [o' Cn']. eapply NC; eauto.
    + assert (CASE : (exists j a1 r1, posOf X done = Some (j, a1, r1) /\ s = (a1, true)) \/ (forall d, oldFace done X s g0 d -> keeps done X s g0 d) /\ newNbr done X s = X /\ (forall d, keeps (done ++ [(A, a, r)]) X s g0 d -> oldFace (done ++ [(A, a, r)]) X s g0 d)).
      { unfold oldFace, newNbr. rewrite SN by exact NeA. destruct (posOf X done) as [[[j a1] r1]|]; [|right; auto].
        destruct (saxis_dec s (a1, true)) as [->|Ns]; [left; eauto 6|right; auto]. }
      destruct CASE as [(j & a1 & r1 & Q & Es)|(K1 & K2 & K3)].
      * exists g. split.
        -- apply STAY; [exact F|congruence|]. intros B o Cn HX. unfold newNbr in HX. destruct (posOf B done) as [[[j' a'] r']|] eqn:QB.
           ++ destruct (saxis_dec s (a', true)) as [Q'|Q']; [lia|]. subst B. rewrite Q in QB. injection QB as <- <- <-. congruence.
           ++ subst B. congruence.
        -- unfold oldFace in *. rewrite SN by exact NeA. rewrite Q in *. destruct (saxis_dec s (a1, true)); [exact O|congruence].
      * destruct DEC as [(o & Cn)|NC].
        -- destruct (LINK X s o g Cn) as (g' & F' & Ng' & Sg'); [rewrite K2; exact F|]. rewrite K2 in F'. exists g'. split; [exact F'|]. apply K3. eapply KLINK; eauto.
        -- exists g. split.
           ++ apply STAY; [exact F|congruence|]. intros B o Cn HX.
              assert (B = X). { unfold newNbr in HX. destruct (posOf B done) as [[[j a'] r']|]; [|congruence]. destruct (saxis_dec s (a', true)); [lia|congruence]. }
              subst B. eapply NC; eauto.
           ++ apply K3. apply keeps_snoc; [exact PA| |now apply K1]. intros o Cn. destruct (PAIR _ _ _ Cn) as [o' Cn']. eapply NC; eauto.
  - intros j A1 a1 r1 s g0 Q F0. destruct (Nat.lt_ge_cases j (length done)) as [Lj|Lj].
    + rewrite nth_error_app1 in Q by exact Lj. destruct (i_face_new _ _ V _ _ _ _ _ _ Q F0) as (g & F & O).
      assert (QP : posOf A1 done = Some (j, a1, r1)).
      { apply nth_posOf; [|exact Q]. rewrite E, map_app in ND. apply NoDup_app_l in ND. exact ND. }
      assert (NX : forall B, N + Z.of_nat j = newNbr done B s -> (exists b, blk mb0 B b) -> B = A1 /\ s = (a1, true)).
      { intros B HX [bb Hbb]. apply blk_lt in Hbb. fold N in Hbb. unfold newNbr in HX. destruct (posOf B done) as [[[j' a'] r']|] eqn:QB; [|lia].
        destruct (saxis_dec s (a', true)) as [Es|]; [|lia]. assert (j' = j) by lia. subst j'. apply posOf_nth in QB. pose proof (eq_trans (eq_sym Q) QB) as QQ. injection QQ as <- <- <-. auto. }
      assert (CB : forall B o, conn mb0 A (a, true) B s o -> exists b, blk mb0 B b).
      { intros B o (h & Fh & Nh & _). destruct (C0 _ _ _ _ Fh Nh) as [Hx _]. exact Hx. }
      destruct (saxis_dec s (a1, true)) as [->|Ns].
      * assert (EN : newNbr done A1 (a1, true) = N + Z.of_nat j).
        { unfold newNbr. rewrite QP. destruct (saxis_dec (a1, true) (a1, true)); [reflexivity|congruence]. }
        unfold newFace in O |- *. destruct (saxis_dec (a1, true) (a1, false)) as [X|_]; [discriminate X|]. 
        destruct (saxis_dec (a1, true) (a1, true)) as [_|X]; [|congruence].
        assert (DEC : (exists o, conn mb0 A (a, true) A1 (a1, true) o) \/ forall o, ~ conn mb0 A (a, true) A1 (a1, true) o).
        { destruct (neighbor (topo far0)) as [B0|] eqn:N0.
          - destruct (closed_conn _ _ _ _ _ C0 Ff0 N0) as (t & o & Cn). destruct (Z.eq_dec A1 B0) as [->|Ne].
            + destruct (saxis_dec (a1, true) t) as [<-|Ne]; [left; eauto|]. right. intros o' Cn'. apply Ne.
              destruct (conn_fun _ _ _ _ _ _ _ _ _ Cn Cn') as (_ & Q' & _). congruence.
            + right. intros o' Cn'. apply Ne. destruct (conn_fun _ _ _ _ _ _ _ _ _ Cn Cn') as (Q' & _). congruence.
          - right. intros o' (h & Fh & Nh & _). rewrite (fac_fun _ _ _ _ _ Fh Ff0) in Nh. congruence. }
        destruct DEC as [(o & Cn)|NC].
        -- destruct (LINK A1 (a1, true) o g Cn) as (g' & F' & Ng' & Sg'); [rewrite EN; exact F|]. rewrite EN in F'. exists g'. split; [exact F'|]. eapply KLINK; eauto.
        -- exists g. split.
           ++ apply STAY; [exact F|assert (N + Z.of_nat j <> A) by lia; congruence|]. intros B o Cn HX. destruct (NX B HX (CB _ _ Cn)) as [-> _]. eapply NC; eauto.
           ++ apply keeps_snoc; [exact PA| |exact O]. intros o Cn. destruct (PAIR _ _ _ Cn) as [o' Cn']. eapply NC; eauto.
      * exists g. split.
        -- apply STAY; [exact F|assert (N + Z.of_nat j <> A) by lia; congruence|]. intros B o Cn HX. destruct (NX B HX (CB _ _ Cn)) as [_ X]. congruence.
        -- unfold newFace in *. destruct (saxis_dec s (a1, false)); [exact O|]. destruct (saxis_dec s (a1, true)); [congruence|exact O].
    + destruct (snoc_idx _ _ _ _ Q Lj) as [-> Q1]. injection Q1 as -> -> ->.
      unfold newFace. destruct (saxis_dec s (a, false)) as [->|N1]; [exists gj; auto|].
      destruct (saxis_dec s (a, true)) as [->|N2].
      * exists gf. split; [exact Fgf|]. rewrite (fac_fun _ _ _ _ _ F0 Ff0). 
        assert (KK : keeps done A (a, true) far0 gf).
        { split; [eapply same_trans; eauto|]. split; [intros H; rewrite Ngf; now apply Zf|]. intros B t o Cn. rewrite Ngf. now apply Kf with (o := o). }
        apply keeps_snoc; [exact PA|exact PN|exact KK].
      * destruct (i_face_old _ _ V _ _ _ F0) as (g & F & O). unfold oldFace in O. rewrite PA in O.
        destruct (LATF (faceNo s) g F) as (h & Fh & Sh & Nh); [intros X; apply N2; now apply faceNo_inj|intros X; apply N1; now apply faceNo_inj|].
        exists h. split; [exact Fh|]. split; [eapply same_trans; [exact Sh|apply O]|exact Nh].
Qed.

End Cutting.
