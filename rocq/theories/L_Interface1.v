(** Area vectors and stencils seen from the two sides of a shared face. *)
From Coq Require Import Reals ZArith List Bool Lia Lra.
From Verif Require Import M_Topology S_Topology M_Halo S_Halo M_Grid M_Metrics S_Metrics M_Flux S_Flux M_FluxKernels S_FluxKernels S_Interface
  L_Grid3 L_Vec L_Flux1 L_Flux2.
Import ListNotations.
Open Scope R_scope.

Definition nxt (a : axis) : axis := match a with I => J | J => K | K => I end.
Definition bz (b : bool) : Z := if b then 1%Z else 0%Z.
Definition corner (a : axis) (p : pt) (u v : bool) : pt :=
  mkpt (fun x => (co p x + (if axis_eqb x (nxt a) then bz u else if axis_eqb x (nxt (nxt a)) then bz v else 0))%Z).
Definition areaOf (X : nodes) (a : axis) (p : pt) : vec :=
  vscale (1/2) (cross (vsub (at3 X (corner a p true false)) (at3 X (corner a p false true)))
                      (vsub (at3 X (corner a p true true)) (at3 X (corner a p false false)))).
Definition geoOf (X : nodes) (a : axis) : Z -> Z -> Z -> fgeo := match a with I => geoI X | J => geoJ X | K => geoK X end.
Definition stOf (c : array3 cell) (a : axis) : Z -> Z -> Z -> Z -> cell := match a with I => stI c | J => stJ c | K => stK c end.
Definition shift (p : pt) (a : axis) (m : Z) : pt := mkpt (fun x => if axis_eqb x a then (co p x + m)%Z else co p x).

Lemma area_eq X p : areaOf X I p = at3 (iArea X) p /\ areaOf X J p = at3 (jArea X) p /\ areaOf X K p = at3 (kArea X) p.
Proof.
  destruct p as [[i j] k]. unfold areaOf, corner, at3, mkpt, iArea, jArea, kArea. cbn [co fst snd axis_eqb nxt bz].
  rewrite !Z.add_0_r. repeat split; reflexivity.
Qed.
Lemma geo_eq X a p : at3 (geoOf X a) p = mkGeo (faceSize (areaOf X a p)) (areaOf X a p) (faceNormal (areaOf X a p)).
Proof. destruct (area_eq X p) as (E1 & E2 & E3). destruct a; cbn [geoOf]; [rewrite E1|rewrite E2|rewrite E3]; reflexivity. Qed.
Lemma st_eq c a p m : at3 (stOf c a) p m = at3 c (shift p a m).
Proof. destruct p as [[i j] k], a; reflexivity. Qed.

Lemma faceSize_opp s : faceSize (opp s) = faceSize s.
Proof. unfold faceSize, opp. autorewrite with vec. f_equal. f_equal. ring. Qed.
Lemma geo_opp s : mkGeo (faceSize (opp s)) (opp s) (faceNormal (opp s)) = reverseFace (mkGeo (faceSize s) s (faceNormal s)).
Proof.
  unfold reverseFace. cbn [gS gs gn]. rewrite faceSize_opp. f_equal. unfold faceNormal. rewrite faceSize_opp.
  unfold opp. vext; unfold Rdiv; ring.
Qed.

Section Shared.
Variables (ng : Z) (dA dB : dims) (o : orient) (s : saxis) (XA XB : nodes) (t : vec) (p p' : pt).
Hypotheses (L : legal o) (RH : rightHanded o) (Hng : (0 < ng)%Z) (HdA : forall a, (0 < dim dA a)%Z).
Hypothesis Hp : (forall a, co (faceLo dA ng s) a <= co p a < co (faceHi dA ng s) a)%Z.
Hypothesis G : glued ng dA dB s o (posF (fst s) p) (posF (fst (o (fst s))) p').
Hypothesis HN : forall q q', interior KNode ng dA q -> pos KNode q (fst s) = facePlane ng dA s ->
    glued ng dA dB s o (pos KNode q) (pos KNode q') -> at3 XB q' = vadd (at3 XA q) t.

(** corner (u,v) of our face is corner (u',v') of theirs *)
Lemma corner_glued u v u' v' :
  (if axis_eqb (fst (o (nxt (fst s)))) (nxt (fst (o (fst s))))
   then u' = (if snd (o (nxt (fst s))) then u else negb u) /\ v' = (if snd (o (nxt (nxt (fst s)))) then v else negb v)
   else v' = (if snd (o (nxt (fst s))) then u else negb u) /\ u' = (if snd (o (nxt (nxt (fst s)))) then v else negb v)) ->
  at3 XB (corner (fst (o (fst s))) p' u' v') = vadd (at3 XA (corner (fst s) p u v)) t.
Proof.
  intros E. apply HN.
  - intros x. unfold interiorAt, extent, corner. rewrite co_mkpt. specialize (Hp x). specialize (HdA x). rewrite faceLo_co, faceHi_co in Hp.
    destruct s as [a sg]. cbn [fst snd] in *. destruct u, v, sg, a, x; cbn [nxt axis_eqb bz dim] in *; lia.
  - unfold pos, corner, facePlane. rewrite co_mkpt. specialize (Hp (fst s)). rewrite faceLo_co, faceHi_co in Hp.
    destruct s as [a sg]. cbn [fst snd] in *. destruct a; cbn [nxt axis_eqb dim] in *; destruct sg; lia.
  - intros x. specialize (G x). cbv zeta in *. unfold posF, pos, corner in *. rewrite !co_mkpt.
    pose proof (L I J) as L1. pose proof (L I K) as L2. pose proof (L J K) as L3.
    destruct s as [a sg]. cbn [fst snd] in *.
    destruct (o I) as [oi si] eqn:EI, (o J) as [oj sj] eqn:EJ, (o K) as [ok sk] eqn:EK. cbn [fst] in *.
    destruct oi, oj; try (exfalso; assert (I = J) by auto; discriminate); destruct ok;
      try (exfalso; assert (I = K) by auto; discriminate); try (exfalso; assert (J = K) by auto; discriminate); clear L1 L2 L3;
    destruct a; rewrite ?EI, ?EJ, ?EK in *; cbn [nxt fst snd axis_eqb] in *; rewrite ?EI, ?EJ, ?EK in *; cbn [fst snd axis_eqb] in *; destruct E as [-> ->];
    destruct x; rewrite ?EI, ?EJ, ?EK in *; cbn [fst snd axis_eqb] in *;
    repeat match goal with |- context [if ?b then negb _ else _] => idtac | s0 : bool |- _ => destruct s0 end; cbn [bz negb]; lia.
Qed.

Lemma area_shared : areaOf XB (fst (o (fst s))) p' = (if snd (o (fst s)) then areaOf XA (fst s) p else opp (areaOf XA (fst s) p)).
Proof.
  pose proof (L I J) as L1. pose proof (L I K) as L2. pose proof (L J K) as L3.
  assert (C: forall u v u' v', _) by exact corner_glued. unfold rightHanded in RH.
  unfold areaOf. destruct s as [a sg]. cbn [fst snd] in *. clear HN G Hp.
  destruct (o I) as [oi si] eqn:EI, (o J) as [oj sj] eqn:EJ, (o K) as [ok sk] eqn:EK. cbn [fst] in *.
  destruct oi, oj; try (exfalso; assert (I = J) by auto; discriminate); clear L1 L2 L3; cbn [scross fst snd] in RH; injection RH as -> ->;
  destruct a; rewrite ?EI, ?EJ, ?EK in *; cbn [nxt fst snd axis_eqb] in *; rewrite ?EI, ?EJ, ?EK in *; cbn [fst snd axis_eqb] in *;
  destruct si, sj; cbn [Bool.eqb xorb] in *;
  repeat match goal with |- context [at3 XB (corner ?a ?q ?u ?v)] =>
    first [rewrite (C true true u v (conj eq_refl eq_refl))|rewrite (C true false u v (conj eq_refl eq_refl))|
           rewrite (C false true u v (conj eq_refl eq_refl))|rewrite (C false false u v (conj eq_refl eq_refl))] end;
  unfold opp; generalize (1/2); intros; vext; ring.
Qed.
Lemma geo_shared : at3 (geoOf XB (fst (o (fst s)))) p' = (if snd (o (fst s)) then at3 (geoOf XA (fst s)) p else reverseFace (at3 (geoOf XA (fst s)) p)).
Proof. rewrite !geo_eq, area_shared. destruct (snd (o (fst s))); [reflexivity|apply geo_opp]. Qed.

(* stencils *)
Variables (h : Z) (cA cB : array3 cell).
Hypothesis HCell : forall q q', (forall a, a <> fst s -> interiorAt KCcAll ng dA q a) ->
    (- (2 * h) < pos KCcAll q (fst s) - facePlane ng dA s < 2 * h)%Z ->
    glued ng dA dB s o (pos KCcAll q) (pos KCcAll q') -> at3 cA q = at3 cB q'.
Lemma stencil_shared m : (- h <= m < h)%Z ->
  at3 (stOf cA (fst s)) p m = at3 (stOf cB (fst (o (fst s)))) p' (if snd (o (fst s)) then m else (-1 - m)%Z).
Proof.
  intros Hm. rewrite !st_eq. clear RH HN HdA. apply HCell.
  - intros a Ha. unfold interiorAt, extent, shift. rewrite co_mkpt. destruct (axis_eqb_spec a (fst s)); [contradiction|].
    specialize (Hp a). rewrite faceLo_co, faceHi_co in Hp. destruct (axis_eqb_spec a (fst s)); [contradiction|]. lia.
  - unfold pos, shift, facePlane. rewrite co_mkpt. destruct (axis_eqb_spec (fst s) (fst s)); [|congruence].
    specialize (Hp (fst s)). rewrite faceLo_co, faceHi_co in Hp. destruct (axis_eqb_spec (fst s) (fst s)); [|congruence]. destruct (snd s); lia.
  - intros a. cbv zeta. pose proof (G a) as Ga. cbv zeta in Ga. unfold posF, pos, shift in Ga |- *. rewrite !co_mkpt.
    destruct (axis_eqb_spec a (fst s)) as [Ea|N].
    + rewrite Ea in *. destruct (axis_eqb_spec (fst s) (fst s)) in Ga; [|congruence]. destruct (axis_eqb_spec (fst (o (fst s))) (fst (o (fst s)))); [|congruence].
      specialize (Hp (fst s)). rewrite faceLo_co, faceHi_co in Hp. destruct (axis_eqb_spec (fst s) (fst s)); [|congruence].
      unfold facePlane in *. destruct (snd (o (fst s))), (snd s); lia.
    + destruct (axis_eqb_spec (fst s) a) in Ga; [congruence|].
      assert (N': fst (o a) <> fst (o (fst s))) by (intros X; apply N; now apply L).
      destruct (axis_eqb_spec (fst (o a)) (fst (o (fst s)))); [contradiction|]. destruct (axis_eqb_spec (fst (o (fst s))) (fst (o a))) in Ga; [congruence|]. lia.
Qed.

Lemma flux_shared f P l : reads h f -> antisymmetricOn P h f -> (0 <= l)%Z ->
  (forall q, P (at3 cA q)) ->
  f (at3 (geoOf XA (fst s)) p) (at3 (stOf cA (fst s)) p) l =
  (if snd (o (fst s)) then 1 else -1) * f (at3 (geoOf XB (fst (o (fst s)))) p') (at3 (stOf cB (fst (o (fst s)))) p') l.
Proof.
  intros HR HA Hl HPc. rewrite geo_shared. pose proof stencil_shared as S. destruct (snd (o (fst s))).
  - rewrite Rmult_1_l. now apply HR.
  - rewrite <- (HR (reverseFace (at3 (geoOf XA (fst s)) p)) (reverseCells (at3 (stOf cA (fst s)) p)) (at3 (stOf cB (fst (o (fst s)))) p') l).
    + rewrite HA; [ring|auto|]. intros m Hm. rewrite st_eq. apply HPc.
    + intros m Hm. unfold reverseCells. rewrite S by lia. f_equal. lia.
Qed.
End Shared.
