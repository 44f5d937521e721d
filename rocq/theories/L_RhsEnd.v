(** Cell and face centres seen from the two sides of a shared face; diffusive kernels under translation. *)
From Coq Require Import Reals ZArith List Bool Lia Lra.
From Verif Require Import M_Topology S_Topology M_Halo S_Halo M_Grid M_Metrics S_Metrics M_Flux S_Flux M_FluxKernels S_FluxKernels S_Interface S_Interface2 M_Control M_Diff S_Diff M_Rhs
  L_Grid3 L_Vec L_Flux1 L_Flux2 L_Interface1 L_Interface2 L_Interface3 L_Thermo L_Diff P_Diff.
Import ListNotations.
Open Scope R_scope.
Local Notation K := S_Topology.K.
Local Notation flipA := S_Topology.flip.

Definition corner3 (p : pt) (b : axis -> bool) : pt := mkpt (fun x => (co p x + bz (b x))%Z).
Definition abc (u v w : bool) : axis -> bool := fun a => match a with I => u | J => v | K => w end.
Definition faceCentreOf (X : nodes) (a : axis) : Z -> Z -> Z -> vec := match a with I => iFaceCentre X | J => jFaceCentre X | K => kFaceCentre X end.
Lemma centre_eq X p : at3 (cellCentre X) p = vscale (125/1000) (vadd (vadd (vadd (at3 X (corner3 p (abc false false false))) (at3 X (corner3 p (abc false false true)))) (vadd (at3 X (corner3 p (abc false true false))) (at3 X (corner3 p (abc false true true)))))
                      (vadd (vadd (at3 X (corner3 p (abc true false false))) (at3 X (corner3 p (abc true false true)))) (vadd (at3 X (corner3 p (abc true true false))) (at3 X (corner3 p (abc true true true)))))).
Proof. destruct p as [[i j] k]. unfold at3, corner3, mkpt, abc, cellCentre. cbn [co fst snd bz]. rewrite !Z.add_0_r. reflexivity. Qed.
Lemma faceCentre_eq X a p : at3 (faceCentreOf X a) p = vscale (25/100) (vadd (vadd (at3 X (corner a p false false)) (at3 X (corner a p false true))) (vadd (at3 X (corner a p true false)) (at3 X (corner a p true true)))).
Proof.
  destruct p as [[i j] k]. unfold at3, corner, mkpt. destruct a; cbn [faceCentreOf nxt axis_eqb co fst snd bz]; unfold iFaceCentre, jFaceCentre, kFaceCentre; rewrite !Z.add_0_r; generalize (25/100); intros c; vext; ring.
Qed.

Section Shared.
Variables (ng : Z) (dA dB : dims) (o : orient) (s : saxis) (XA XB : nodes) (t : vec).
Hypotheses (L : legal o) (Hng : (0 < ng)%Z) (HdA : forall a, (0 < dim dA a)%Z).
Hypothesis HN : forall q q', (forall a, a <> fst s -> interiorAt KNode ng dA q a) -> (-2 <= pos KNode q (fst s) - facePlane ng dA s <= 2)%Z ->
    glued ng dA dB s o (pos KNode q) (pos KNode q') -> at3 XB q' = vadd (at3 XA q) t.
Lemma corner3_shared q q' b b' :
  (forall a, a <> fst s -> interiorAt KCcAll ng dA q a) -> (-2 < pos KCcAll q (fst s) - facePlane ng dA s < 2)%Z ->
  glued ng dA dB s o (pos KCcAll q) (pos KCcAll q') -> (forall a, b' (fst (o a)) = if snd (o a) then b a else negb (b a)) ->
  at3 XB (corner3 q' b') = vadd (at3 XA (corner3 q b)) t.
Proof.
  intros Hq Hd G Hb. apply HN.
  - intros a Na. specialize (Hq a Na). unfold interiorAt, extent, corner3 in *. rewrite co_mkpt. destruct (b a); cbn [bz]; lia.
  - unfold pos, corner3 in *. rewrite co_mkpt. destruct (b (fst s)); cbn [bz]; lia.
  - intros a. specialize (G a). cbv zeta in *. unfold pos, corner3 in *. rewrite !co_mkpt, Hb. destruct (axis_eqb a (fst s)); destruct (snd (o a)), (b a); cbn [negb bz]; lia.
Qed.
Lemma centre_shared q q' :
  (forall a, a <> fst s -> interiorAt KCcAll ng dA q a) -> (-2 < pos KCcAll q (fst s) - facePlane ng dA s < 2)%Z ->
  glued ng dA dB s o (pos KCcAll q) (pos KCcAll q') -> at3 (cellCentre XB) q' = vadd (at3 (cellCentre XA) q) t.
Proof.
  intros Hq Hd G. assert (C : forall b b', _) by exact (fun b b' => corner3_shared q q' b b' Hq Hd G). rewrite !centre_eq. clear Hq Hd G HN.
  pose proof (L I J) as L1. pose proof (L I K) as L2. pose proof (L J K) as L3.
  assert (C' : forall u v w u' v' w', (forall a, abc u' v' w' (fst (o a)) = if snd (o a) then abc u v w a else negb (abc u v w a)) -> at3 XB (corner3 q' (abc u' v' w')) = vadd (at3 XA (corner3 q (abc u v w))) t) by (intros; apply C; auto).
  clear C. destruct (o I) as [oi si] eqn:EI, (o J) as [oj sj] eqn:EJ, (o K) as [ok sk] eqn:EK. cbn [fst] in *.
  destruct oi, oj; try (exfalso; assert (I = J) by auto; discriminate); destruct ok;
      try (exfalso; assert (I = K) by auto; discriminate); try (exfalso; assert (J = K) by auto; discriminate); clear L1 L2 L3; destruct si, sj, sk;
  repeat match goal with |- context [at3 XB (corner3 q' (abc ?u ?v ?w))] =>
    first [rewrite (C' true true true u v w) by (intros []; rewrite ?EI, ?EJ, ?EK; reflexivity)|rewrite (C' true true false u v w) by (intros []; rewrite ?EI, ?EJ, ?EK; reflexivity)
          |rewrite (C' true false true u v w) by (intros []; rewrite ?EI, ?EJ, ?EK; reflexivity)|rewrite (C' true false false u v w) by (intros []; rewrite ?EI, ?EJ, ?EK; reflexivity)
          |rewrite (C' false true true u v w) by (intros []; rewrite ?EI, ?EJ, ?EK; reflexivity)|rewrite (C' false true false u v w) by (intros []; rewrite ?EI, ?EJ, ?EK; reflexivity)
          |rewrite (C' false false true u v w) by (intros []; rewrite ?EI, ?EJ, ?EK; reflexivity)|rewrite (C' false false false u v w) by (intros []; rewrite ?EI, ?EJ, ?EK; reflexivity)] end;
  clear; vext; field.
Qed.
Variables (p p' : pt).
Hypothesis Hp : (forall a, co (faceLo dA ng s) a <= co p a < co (faceHi dA ng s) a)%Z.
Hypothesis G : glued ng dA dB s o (posF (fst s) p) (posF (fst (o (fst s))) p').
Hypothesis RH : rightHanded o.
Lemma HNface : forall q q', interior KNode ng dA q -> pos KNode q (fst s) = facePlane ng dA s ->
    glued ng dA dB s o (pos KNode q) (pos KNode q') -> at3 XB q' = vadd (at3 XA q) t.
Proof. intros q q' Hq E Gq. apply HN; auto. lia. Qed.
Lemma faceCentre_shared : at3 (faceCentreOf XB (fst (o (fst s)))) p' = vadd (at3 (faceCentreOf XA (fst s)) p) t.
Proof.
  rewrite !faceCentre_eq. pose proof (L I J) as L1. pose proof (L I K) as L2. pose proof (L J K) as L3.
  assert (C: forall u v u' v', _) by exact (corner_glued ng dA dB o s XA XB t p p' L HdA Hp G HNface). unfold rightHanded in RH.
  destruct s as [a sg]. cbn [fst snd] in *. clear HN G Hp.
  destruct (o I) as [oi si] eqn:EI, (o J) as [oj sj] eqn:EJ, (o K) as [ok sk] eqn:EK. cbn [fst] in *.
  destruct oi, oj; try (exfalso; assert (I = J) by auto; discriminate); clear L1 L2 L3; cbn [scross fst snd] in RH; injection RH as -> ->;
  destruct a; rewrite ?EI, ?EJ, ?EK in *; cbn [nxt fst snd axis_eqb] in *; rewrite ?EI, ?EJ, ?EK in *; cbn [fst snd axis_eqb] in *;
  destruct si, sj; cbn [Bool.eqb xorb] in *;
  repeat match goal with |- context [at3 XB (corner ?a ?q ?u ?v)] =>
    first [rewrite (C true true u v (conj eq_refl eq_refl))|rewrite (C true false u v (conj eq_refl eq_refl))|
           rewrite (C false true u v (conj eq_refl eq_refl))|rewrite (C false false u v (conj eq_refl eq_refl))] end;
  clear; vext; field.
Qed.
End Shared.

(** moving a face and its two cells together changes nothing *)
Definition moveF (t : vec) (f : dface) : dface := mkDF (fs f) (fnn f) (vadd (fx f) t).
Definition moveC (t : vec) (c : dcell) : dcell := mkD (vadd (dX c) t) (dRho c) (dq c) (dG c) (dt c) (dh c).
Lemma mag_move t f L Rc : magEdotN (moveF t f) (moveC t L) (moveC t Rc) = magEdotN f L Rc.
Proof. unfold magEdotN, moveF, moveC. cbn [fnn dX]. cbv zeta. rewrite !vx_add, !vy_add, !vz_add. f_equal. ring. Qed.
Lemma extrapolate_move t f c l : extrapolate (moveF t f) (moveC t c) l = extrapolate f c l.
Proof. unfold extrapolate, moveF, moveC. cbn [fx dX dq dG]. rewrite !vx_add, !vy_add, !vz_add. ring. Qed.
Lemma alpha_move ne t f L Rc l : alphaDampingFlux ne (moveF t f) (moveC t L) (moveC t Rc) l = alphaDampingFlux ne f L Rc l.
Proof.
  unfold alphaDampingFlux. replace (dampedGrad (moveF t f) (moveC t L) (moveC t Rc)) with (dampedGrad f L Rc); [reflexivity|].
  apply FunctionalExtensionality.functional_extensionality. intros m. unfold dampedGrad. cbv zeta. rewrite mag_move, !extrapolate_move. reflexivity.
Qed.
Lemma diffusive_move ne t f L Rc l : diffusiveFlux ne (moveF t f) (moveC t L) (moveC t Rc) l = diffusiveFlux ne f L Rc l.
Proof. reflexivity. Qed.
