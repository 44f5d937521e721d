(** Halo exchange makes both sides of every shared face hold the same cells; antisymmetric kernels then
    compute the same transfer. *)
From Coq Require Import Reals ZArith List Bool Lia Lra FunctionalExtensionality.
From Verif Require Import M_Topology S_Topology M_Halo S_Halo M_Grid M_Metrics S_Metrics M_Flux S_Sum S_Flux M_FluxKernels S_FluxKernels S_Interface
  L_Topology L_Grid3 L_Vec L_Flux1 L_Halo3 L_Halo4 L_Flux2 L_Interface1 P_Halo.
Import ListNotations.
Open Scope R_scope.

(** everything that conformity says about a given connection *)
Lemma conforming_joined ng w A f B o s : conforming ng w -> joined w A f B o -> outward (nface f) s ->
  exists g o', inverse o o' /\ joined w B g A o' /\ outward (nface g) (flip (act o s)) /\
    (forall a, a <> fst s -> dim (sb_dims B) (fst (o a)) = dim (sb_dims A) a).
Proof.
  intros (Hng & ND & HB & HC) Jn Ou. destruct Jn as (HA & Hf & HBi & En & Lo & Eo).
  destruct (HC A f (num B) HA Hf En) as (B1 & o1 & g & o' & s1 & J1 & N1 & V & O1 & J2 & O2 & D).
  assert (B1 = B) by (apply (num_inj w); auto; apply J1). subst B1.
  assert (E: o1 = o). { apply functional_extensionality. apply show_inj. destruct J1 as (_ & _ & _ & _ & _ & X). congruence. } subst o1.
  assert (s1 = s) by (apply dirOf_outward in O1, Ou; congruence). subst s1.
  exists g, o'. auto.
Qed.
Lemma glued_back ng dA dB o o' s (X X' : axis -> Z) : legal o -> inverse o o' -> (forall a, a <> fst s -> dim dB (fst (o a)) = dim dA a) ->
  glued ng dA dB s o X X' -> glued ng dB dA (flip (act o s)) o' X' X.
Proof.
  intros L V HD G a'. cbv zeta. pose proof (inverse_back o o' L V) as V'. destruct (inverse_facts o' o V' a') as [F1 F2].
  set (a := fst (o' a')) in *. assert (Fs: fst (flip (act o s)) = fst (o (fst s))) by (unfold act; destruct (snd s); reflexivity).
  assert (Es: flip (act o' (flip (act o s))) = s). { rewrite act_flip, flip_flip. apply V. }
  specialize (G a). cbv zeta in G. rewrite F1, F2 in G. rewrite Fs.
  destruct (axis_eqb_spec a (fst s)) as [E|E].
  - destruct (axis_eqb_spec a' (fst (o (fst s)))) as [E'|E']; [|exfalso; apply E'; rewrite <- E; auto].
    rewrite Es. destruct (snd (o' a')); lia.
  - destruct (axis_eqb_spec a' (fst (o (fst s)))) as [E'|E']; [exfalso; apply E; apply L; congruence|].
    rewrite <- F1, HD by auto. rewrite F1. destruct (snd (o' a')); lia.
Qed.

(** Same transfer from shared nodes and shared cells. *)
Lemma shared_transfer ng h w X c f P l : conforming ng w -> (forall A f B o, joined w A f B o -> rightHanded o) ->
  sharedNodes ng w X -> sharedCells ng h w c -> reads h f -> antisymmetricOn P h f -> (forall n i j k, P (c n i j k)) -> (0 <= l)%Z ->
  sameTransfer ng w (fun n => blockFlux f (X n) (c n)) l.
Proof.
  intros HC RH SN SC HR HA HP Hl A fc B o s p p' Jn Ou Hp G.
  destruct (SN A fc B o s Jn Ou) as [t Ht].
  assert (Hng: (0 < ng)%Z) by apply HC. assert (L: legal o) by apply Jn.
  assert (Hd: forall a, (0 < dim (sb_dims A) a)%Z). { destruct HC as (_ & _ & HB & _). apply HB. apply Jn. }
  pose proof (flux_shared ng (sb_dims A) (sb_dims B) o s (X (num A)) (X (num B)) t p p' L (RH _ _ _ _ Jn) Hd Hp G Ht h (c (num A)) (c (num B))
     (fun q q' => SC A fc B o s q q' Jn Ou) f P l HR HA Hl) as E.
  assert (Q: forall n a q, at3 (fluxOf (blockFlux f (X n) (c n)) l a) q = f (at3 (geoOf (X n) a) q) (at3 (stOf (c n) a) q) l).
  { intros n a [[i j] k]. destruct a; reflexivity. }
  rewrite !Q. apply E. intros [[i j] k]. apply HP.
Qed.

(** The exchange establishes shared cells, whatever the halos held before. *)
Lemma exchange_shares ng h w cw (st st' : state cell) : conforming ng w -> (h <= ng)%Z ->
  (forall A f B o s, joined w A f B o -> outward (nface f) s -> (ng < dim (sb_dims B) (fst (o (fst s))))%Z) ->
  setupAll ng w = Some cw -> communicate ng KCcAll cw st = Some st' -> sharedCells ng h w st'.
Proof.
  intros HC Hh WD ES EC.
  destruct (C06_cell_halo_exchange ng w HC) as (cw1 & E1 & H06). rewrite ES in E1. injection E1 as <-.
  destruct (H06 _ st) as (st1 & E1 & F06). rewrite EC in E1. injection E1 as <-.
  destruct (C09_exchange_keeps_interior ng w KCcAll HC) as (cw2 & E2 & H09). rewrite ES in E2. injection E2 as <-.
  destruct (H09 _ st) as (st2 & E2 & _ & F09). rewrite EC in E2. injection E2 as <-. clear H06 H09.
  intros A f B o s q q' Jn Ou Ht Hd G.
  destruct (conforming_joined ng w A f B o s HC Jn Ou) as (g & o' & V & Jb & Ob & HD).
  assert (L: legal o) by apply Jn. assert (L': legal o') by apply Jb.
  pose proof (WD _ _ _ _ _ Jn Ou) as W1. pose proof (WD _ _ _ _ _ Jb Ob) as W2.
  assert (Es: flip (act o' (flip (act o s))) = s). { rewrite act_flip, flip_flip. apply V. }
  assert (Fs: fst (flip (act o s)) = fst (o (fst s))) by (unfold act; destruct (snd s); reflexivity).
  assert (F': fst (o' (fst (flip (act o s)))) = fst s). { rewrite Fs. apply (inverse_facts o o' V). }
  rewrite F' in W2.
  assert (Hng: (0 < ng)%Z) by apply HC.
  pose proof (glued_back ng _ _ o o' s _ _ L V HD G) as Gb.
  assert (SS: snd (flip (act o s)) = if snd s then negb (snd (o (fst s))) else snd (o (fst s))).
  { unfold act. destruct (snd s), (o (fst s)) as [? []]; reflexivity. }
  assert (Hside: inHalo KCcAll ng (sb_dims A) s q \/ interior KCcAll ng (sb_dims A) q /\ inHalo KCcAll ng (sb_dims B) (flip (act o s)) q').
  { specialize (G (fst s)). cbv zeta in G. destruct (axis_eqb_spec (fst s) (fst s)); [|congruence].
    unfold inHalo. cbn [pos] in *. rewrite Fs, SS. unfold facePlane in *. rewrite Fs, SS in G. 
    destruct (snd s) eqn:Es1.
    - destruct (Z.le_gt_cases (dim (sb_dims A) (fst s) - 1 + ng) (co q (fst s))) as [Q|Q]; [left; lia|right]. split.
      + intros a. destruct (axis_eqb_spec a (fst s)) as [->|Na]; [|auto]. unfold interiorAt, extent. lia.
      + destruct (snd (o (fst s))); cbn [negb] in *; lia.
    - destruct (Z.lt_ge_cases (co q (fst s)) ng) as [Q|Q]; [left; lia|right]. split.
      + intros a. destruct (axis_eqb_spec a (fst s)) as [->|Na]; [|auto]. unfold interiorAt, extent. lia.
      + destruct (snd (o (fst s))); cbn [negb] in *; lia. }
  destruct Hside as [Hq|[Hq Hq']].
  - destruct (F06 A f B o s q Jn Ou Hq Ht W1) as (p'' & I'' & G'' & E'').
    assert (p'' = q') by exact (glued_unique KCcAll ng _ _ s o _ p'' q' L G'' G). subst p''. rewrite E''. symmetry. apply F09; auto. apply Jn.
  - destruct (F06 B g A o' (flip (act o s)) q' Jb Ob Hq') as (p'' & I'' & G'' & E'').
    + intros a' Na'. pose proof (inverse_back o o' L V) as V'. destruct (inverse_facts o' o V' a') as [F1 F2].
      assert (Na: fst (o' a') <> fst s). { intros X. apply Na'. rewrite Fs, <- X. auto. }
      specialize (Ht (fst (o' a')) Na). specialize (G (fst (o' a'))). cbv zeta in G. destruct (axis_eqb_spec (fst (o' a')) (fst s)); [contradiction|].
      rewrite F1, F2 in G. specialize (HD (fst (o' a')) Na). rewrite F1 in HD. unfold interiorAt, extent, pos in *. rewrite HD. destruct (snd (o' a')); lia.
    + rewrite F'. auto.
    + assert (p'' = q) by exact (glued_unique KCcAll ng _ _ _ o' _ p'' q L' G'' Gb). subst p''. rewrite E''. apply F09; auto. apply Jn.
Qed.
