(** Exchanges of any kind of cell data make both sides of a shared face agree; cells next to glued faces. *)
From Coq Require Import Reals ZArith List Bool Lia Lra FunctionalExtensionality.
From Verif Require Import M_Topology S_Topology M_Halo S_Halo M_Grid M_Metrics S_Metrics M_Flux S_Sum S_Flux M_FluxKernels S_FluxKernels S_Interface S_Interface2
  L_Topology L_Grid3 L_Vec L_Flux1 L_Halo3 L_Halo4 L_Halo6 L_Flux2 L_Interface1 L_Interface2 P_Halo.
Import ListNotations.
Open Scope R_scope.

Lemma exchange_shares_any {C} k ng h w cw (st st' : state C) : conforming ng w -> k <> KNode -> (h <= nLayers k ng)%Z ->
  (forall A f B o s, joined w A f B o -> outward (nface f) s -> (ng < dim (sb_dims B) (fst (o (fst s))))%Z) ->
  setupAll ng w = Some cw -> communicate ng k cw st = Some st' -> sharedValues ng h w st'.
Proof.
  intros HC Hk Hh WD ES EC.
  destruct (halo_faces ng w k HC) as (cw1 & E1 & H06). rewrite ES in E1. injection E1 as <-.
  destruct (H06 _ st) as (st1 & E1 & F06). rewrite EC in E1. injection E1 as <-.
  destruct (C09_exchange_keeps_interior ng w k HC) as (cw2 & E2 & H09). rewrite ES in E2. injection E2 as <-.
  destruct (H09 _ st) as (st2 & E2 & _ & F09). rewrite EC in E2. injection E2 as <-. clear H06 H09.
  intros A f B o s q q' Jn Ou Ht Hd G.
  destruct (conforming_joined ng w A f B o s HC Jn Ou) as (g & o' & V & Jb & Ob & HD).
  assert (L: legal o) by apply Jn. assert (L': legal o') by apply Jb.
  pose proof (WD _ _ _ _ _ Jn Ou) as W1. pose proof (WD _ _ _ _ _ Jb Ob) as W2.
  assert (Es: flip (act o' (flip (act o s))) = s). { rewrite act_flip, flip_flip. apply V. }
  assert (Fs: fst (flip (act o s)) = fst (o (fst s))) by (unfold act; destruct (snd s); reflexivity).
  assert (F': fst (o' (fst (flip (act o s)))) = fst s). { rewrite Fs. apply (inverse_facts o o' V). }
  rewrite F' in W2.
  assert (Hng: (0 < ng)%Z) by apply HC.
  assert (Kp : forall p, pos k p = pos KCcAll p) by (intros p; destruct k; [congruence|reflexivity|reflexivity]).
  assert (Ki : forall d p a, interiorAt k ng d p a <-> interiorAt KCcAll ng d p a) by (intros d p a; destruct k; [congruence|reflexivity|reflexivity]).
  pose proof (glued_back ng _ _ o o' s _ _ L V HD G) as Gb.
  assert (SS: snd (flip (act o s)) = if snd s then negb (snd (o (fst s))) else snd (o (fst s))).
  { unfold act. destruct (snd s), (o (fst s)) as [? []]; reflexivity. }
  assert (Hside: inHalo k ng (sb_dims A) s q \/ interior KCcAll ng (sb_dims A) q /\ inHalo k ng (sb_dims B) (flip (act o s)) q').
  { specialize (G (fst s)). cbv zeta in G. destruct (axis_eqb_spec (fst s) (fst s)); [|congruence].
    unfold inHalo. cbn [pos] in *. rewrite Fs, SS. unfold facePlane in *. rewrite Fs, SS in G. 
    destruct (snd s) eqn:Es1.
    - destruct (Z.le_gt_cases (dim (sb_dims A) (fst s) - 1 + ng) (co q (fst s))) as [Q|Q]; [left|right].
      + destruct k; cbn [nLayers] in Hh; [congruence|lia|lia].
      + split.
        * intros a. destruct (axis_eqb_spec a (fst s)) as [->|Na]; [|auto]. unfold interiorAt, extent. destruct k; cbn [nLayers] in Hh; [congruence|lia|lia].
        * destruct k; cbn [nLayers] in Hh; [congruence| |]; destruct (snd (o (fst s))); cbn [negb] in *; lia.
    - destruct (Z.lt_ge_cases (co q (fst s)) ng) as [Q|Q]; [left|right].
      + destruct k; cbn [nLayers] in Hh; [congruence|lia|lia].
      + split.
        * intros a. destruct (axis_eqb_spec a (fst s)) as [->|Na]; [|auto]. unfold interiorAt, extent. destruct k; cbn [nLayers] in Hh; [congruence|lia|lia].
        * destruct k; cbn [nLayers] in Hh; [congruence| |]; destruct (snd (o (fst s))); cbn [negb] in *; lia. }
  destruct Hside as [Hq|[Hq Hq']].
  - destruct (F06 A f B o s q Jn Ou Hq (fun a Na => proj2 (Ki _ _ _) (Ht a Na)) W1) as (p'' & I'' & G'' & E''). rewrite !Kp in G''.
    assert (p'' = q') by exact (glued_unique KCcAll ng _ _ s o _ p'' q' L G'' G). subst p''. rewrite E''. symmetry. apply F09; auto. apply Jn.
  - destruct (F06 B g A o' (flip (act o s)) q' Jb Ob Hq') as (p'' & I'' & G'' & E'').
    + intros a' Na'. apply Ki. pose proof (inverse_back o o' L V) as V'. destruct (inverse_facts o' o V' a') as [F1 F2].
      assert (Na: fst (o' a') <> fst s). { intros X. apply Na'. rewrite Fs, <- X. auto. }
      specialize (Ht (fst (o' a')) Na). specialize (G (fst (o' a'))). cbv zeta in G. destruct (axis_eqb_spec (fst (o' a')) (fst s)); [contradiction|].
      rewrite F1, F2 in G. specialize (HD (fst (o' a')) Na). rewrite F1 in HD. unfold interiorAt, extent, pos in *. rewrite HD. destruct (snd (o' a')); lia.
    + rewrite F'. auto.
    + rewrite !Kp in G''. assert (p'' = q) by exact (glued_unique KCcAll ng _ _ _ o' _ p'' q L' G'' Gb). subst p''. rewrite E''. apply F09; [apply Jn|].
      intros a. apply Ki. apply Hq.
Qed.
Lemma sharedValues_map {C D} ng h w (c : Z -> array3 C) (F : C -> D) : sharedValues ng h w c -> sharedValues ng h w (fun n i j k => F (c n i j k)).
Proof. intros H A f B o s [[i j] k] [[i' j'] k'] Jn Ou Ht Hd G. unfold at3. cbn [fst snd]. f_equal. exact (H A f B o s (i, j, k) (i', j', k') Jn Ou Ht Hd G). Qed.
Lemma sharedValues_less {C} ng h h' w (c : Z -> array3 C) : (h' <= h)%Z -> sharedValues ng h w c -> sharedValues ng h' w c.
Proof. intros Hh H A f B o s q q' Jn Ou Ht Hd G. apply (H A f B o s q q'); auto. lia. Qed.
Lemma sharedValues_pair {C D} ng h w (c : Z -> array3 C) (d : Z -> array3 D) : sharedValues ng h w c -> sharedValues ng h w d ->
  sharedValues ng h w (fun n i j k => (c n i j k, d n i j k)).
Proof.
  intros H H' A f B o s [[i j] k] [[i' j'] k'] Jn Ou Ht Hd G. unfold at3. cbn [fst snd].
  f_equal; [exact (H A f B o s (i, j, k) (i', j', k') Jn Ou Ht Hd G)|exact (H' A f B o s (i, j, k) (i', j', k') Jn Ou Ht Hd G)].
Qed.

Section Stencil.
Context {C : Type}.
Variables (ng : Z) (dA dB : dims) (o : orient) (s : saxis) (p p' : pt).
Hypotheses (L : legal o).
Hypothesis Hp : (forall a, co (faceLo dA ng s) a <= co p a < co (faceHi dA ng s) a)%Z.
Hypothesis G : glued ng dA dB s o (posF (fst s) p) (posF (fst (o (fst s))) p').
(** the cells on either side of our face are the cells on either side of theirs *)
Lemma shift_facts m : 
  (forall a, a <> fst s -> interiorAt KCcAll ng dA (shift p (fst s) m) a) /\
  (pos KCcAll (shift p (fst s) m) (fst s) - facePlane ng dA s = 2 * m + 1)%Z /\
  glued ng dA dB s o (pos KCcAll (shift p (fst s) m)) (pos KCcAll (shift p' (fst (o (fst s))) (if snd (o (fst s)) then m else (-1 - m)%Z))).
Proof.
  split; [|split].
  - intros a Ha. unfold interiorAt, extent, shift. rewrite co_mkpt. destruct (axis_eqb_spec a (fst s)); [contradiction|].
    specialize (Hp a). rewrite faceLo_co, faceHi_co in Hp. destruct (axis_eqb_spec a (fst s)); [contradiction|]. lia.
  - unfold pos, shift, facePlane. rewrite co_mkpt. destruct (axis_eqb_spec (fst s) (fst s)); [|congruence].
    specialize (Hp (fst s)). rewrite faceLo_co, faceHi_co in Hp. destruct (axis_eqb_spec (fst s) (fst s)); [|congruence]. destruct (snd s); lia.
  - intros a. cbv zeta. pose proof (G a) as Ga. cbv zeta in Ga. unfold posF, pos, shift in Ga |- *. rewrite !co_mkpt.
    destruct (axis_eqb_spec a (fst s)) as [Ea|N].
    + rewrite Ea in *. destruct (axis_eqb_spec (fst s) (fst s)) in Ga; [|congruence]. destruct (axis_eqb_spec (fst (o (fst s))) (fst (o (fst s)))); [|congruence].
      specialize (Hp (fst s)). rewrite faceLo_co, faceHi_co in Hp. destruct (axis_eqb_spec (fst s) (fst s)); [|congruence].
      unfold facePlane in *. destruct (snd (o (fst s))), (snd s); lia.
    + destruct (axis_eqb_spec (fst s) a) in Ga; [congruence|].
      assert (N': fst (o a) <> fst (o (fst s))) by (intros X; apply N; now apply L).
      destruct (axis_eqb_spec (fst (o a)) (fst (o (fst s)))); [contradiction|]. destruct (axis_eqb_spec (fst (o (fst s))) (fst (o a))) in Ga; [congruence|]. lia.
Qed.
End Stencil.
(** values on either side of a shared face *)
Lemma beside {C} ng h w (c : Z -> array3 C) A f B o s p p' m : sharedValues ng h w c -> joined w A f B o -> outward (nface f) s ->
  (forall a, co (faceLo (sb_dims A) ng s) a <= co p a < co (faceHi (sb_dims A) ng s) a)%Z ->
  glued ng (sb_dims A) (sb_dims B) s o (posF (fst s) p) (posF (fst (o (fst s))) p') -> (- h <= m < h)%Z ->
  at3 (c (num A)) (shift p (fst s) m) = at3 (c (num B)) (shift p' (fst (o (fst s))) (if snd (o (fst s)) then m else (-1 - m)%Z)).
Proof.
  intros SV Jn Ou Hp G Hm. destruct (shift_facts ng (sb_dims A) (sb_dims B) o s p p' ltac:(apply Jn) Hp G m) as (F1 & F2 & F3).
  apply (SV A f B o s); auto. lia.
Qed.
