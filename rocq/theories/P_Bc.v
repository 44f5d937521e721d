(** Boundary conditions: C49 - C51, C53, C54. *)
From Coq Require Import Reals ZArith List Bool Lra Lia Psatz.
From Verif Require Import M_Topology M_Halo M_Grid M_Metrics M_Flux M_FluxKernels M_Thermo L_Vec M_Bc S_Bc L_Bc.
Import ListNotations.
Open Scope R_scope.

(** * C49 *)
Theorem C49_ranges : forall d ng n x y z r, (2 <= ni d)%Z -> (2 <= nj d)%Z -> (2 <= nk d)%Z -> (0 <= ng)%Z ->
  getRange3 d ng n x y z = Some r -> forall i j k, inRange r i j k = true <->
    (n = -1 /\ 0 <= i < ni d - 1 + 2 * ng /\ 0 <= j < nj d - 1 + 2 * ng /\ 0 <= k < nk d - 1 + 2 * ng)%Z
    \/ (n = 0 /\ ng <= i < ng + (ni d - 1) /\ ng <= j < ng + (nj d - 1) /\ ng <= k < ng + (nk d - 1))%Z
    \/ (isBface n /\ behind d ng n i j k)
    \/ (n = 10 /\ i = x /\ j = y /\ k = z)%Z.
Proof.
  intros d ng n x y z r D1 D2 D3 G. unfold getRange3.
  assert (Ei : forall A (a b : A), Some a = Some b -> a = b) by (intros; congruence).
  repeat match goal with |- (if (n =? ?v)%Z then _ else _) = _ -> _ =>
    destruct (Z.eqb_spec n v) as [-> | ?]; [ intros E; apply Ei in E; subst r; intros i j k; unfold inRange; rewrite !andb_true_iff, !Z.leb_le, !Z.ltb_lt | ] end;
    [ | | | | | | | | | discriminate ].
  1, 2, 9: (split; [ intros H; first [ left; lia | right; left; lia | right; right; right; lia ] | intros [H | [H | [[H _] | H]]]; unfold isBface in *; lia ]).
  all: (split;
   [ intros H; right; right; left; split; [unfold isBface; lia | ]; unfold behind, layerCell, layerIndex, nodesAlong, onBface; cbn [Z.leb Z.odd Z.compare Pos.compare Pos.compare_cont]
   | intros [H | [H | [[_ H] | H]]]; [lia | lia | | lia];
     unfold behind, layerCell, layerIndex, nodesAlong, onBface in H; cbn [Z.leb Z.odd Z.compare Pos.compare Pos.compare_cont] in H;
     destruct H as (g & a & b & H1 & H2 & H3); injection H3 as -> -> ->; lia ]).
  - exists (ng - 1 - i)%Z, j, k. split; [lia | ]. split; [lia | ]. f_equal. f_equal. lia.
  - exists (i - (ni d + ng - 1))%Z, j, k. split; [lia | ]. split; [lia | ]. f_equal. f_equal. lia.
  - exists (ng - 1 - j)%Z, i, k. split; [lia | ]. split; [lia | ]. f_equal. f_equal. lia.
  - exists (j - (nj d + ng - 1))%Z, i, k. split; [lia | ]. split; [lia | ]. f_equal. f_equal. lia.
  - exists (ng - 1 - k)%Z, i, j. split; [lia | ]. split; [lia | ]. f_equal. lia.
  - exists (k - (nk d + ng - 1))%Z, i, j. split; [lia | ]. split; [lia | ]. f_equal. lia.
Qed.
Theorem C49_unknown_raises : forall d ng n x y z, getRange3 d ng n x y z = None <-> ~ (-1 <= n <= 6 \/ n = 10)%Z.
Proof.
  intros. unfold getRange3.
  repeat match goal with |- (if (n =? ?v)%Z then _ else _) = _ <-> _ => destruct (Z.eqb_spec n v) as [-> | ?]; [ split; [discriminate | intros H; exfalso; apply H; lia] | ] end.
  split; [ intros _; lia | reflexivity ].
Qed.
Example C49_nonvacuous : exists r, getRange3 (mkDims 4 3 5) 2 6 0 0 0 = Some r /\ inRange r 6 5 7 = true /\ inRange r 0 0 5 = false.
Proof. eexists. split; [reflexivity | ]. split; reflexivity. Qed.

(** * what a condition writes *)
Definition finish (k : bcKind) (eos : cell -> cell) (bQ : Z -> R) (cM c : cell) : cell :=
  match k with periodicRotLow | periodicRotHigh => c | constantMassFluxSubsonicInlet => massCell bQ cM (eos c) | _ => eos c end.
Lemma euler_spec k eos d ng ne n fd nI nJ nK blk : isBface n -> (ng = 1 \/ ng = 2)%Z -> (2 <= ni d)%Z -> (2 <= nj d)%Z -> (2 <= nk d)%Z -> k <> nullBc ->
  exists blk', bcEuler k eos d ng ne n fd nI nJ nK blk = Some blk' /\
  (forall g a b, (0 <= g < ng)%Z -> onBface d ng n a b ->
     cellOf blk' (layerCell d ng n (- g) a b) =
     finish k eos (f_QBc fd a b) (cellOf blk (layerCell d ng n (1 + g) a b))
       (eulerCell k ne (plusOf n) fd (slice (loopNormal k nI nJ nK n) n (if Z.odd n then ng else nodesAlong d n + ng - 1)%Z a b) (f_qBc fd a b)
          (cellOf blk (layerCell d ng n 1 a b)) (cellOf blk (layerCell d ng n (2 + g) a b)) (cellOf blk (layerCell d ng n (- g) a b)))) /\
  (forall i j l, ~ behind d ng n i j l -> blk' i j l = blk i j l).
Proof.
  intros Hn Hg D1 D2 D3 Hk.
  set (N := slice (loopNormal k nI nJ nK n) n (if Z.odd n then ng else nodesAlong d n + ng - 1)%Z).
  set (F := fun a b c1 c2 c0 => eulerCell k ne (plusOf n) fd (N a b) (f_qBc fd a b) c1 c2 c0).
  assert (Lp : (layerIndex d ng n 1 + plusOf n)%Z = layerIndex d ng n 2) by (rewrite <- layer_step by auto; reflexivity).
  generalize (layers_spec d ng n F Hn Hg 1 2 blk ltac:(lia) ltac:(lia)). cbv zeta.
  set (r := layers ng (plusOf n) (layerIndex d ng n 0) (layerIndex d ng n 2) _ blk).
  intros (R1 & R2 & R3 & R4).
  assert (O : forall (f' : field), (forall s a b, ~ (exists g, (0 <= g < ng)%Z /\ s = layerIndex d ng n (- g) /\ onBface d ng n a b) -> slice f' n s a b = slice blk n s a b) ->
     forall i j l, ~ behind d ng n i j l -> f' i j l = blk i j l).
  { intros f' Hf i j l NB. generalize (cellAt_faceCoord n i j l Hn). destruct (faceCoord n i j l) as [[s a] b]. intros C.
    assert (X : slice f' n s a b = slice blk n s a b).
    { apply Hf. intros (g & G & -> & Ob). apply NB. exists g, a, b. split; [exact G | ]. split; [exact Ob | ]. rewrite <- C. apply cellAt_layer; auto. }
    unfold slice in X. rewrite C in X. exact X. }
  assert (Dr : forall T (X : field -> Z -> Z -> T), (let '(blk1, h1, s21) := r in X blk1 h1 s21) = X (fst (fst r)) (snd (fst r)) (snd r)).
  { intros T X. destruct r as [[? ?] ?]. reflexivity. }
  assert (Cell : forall f' : field, forall g a b, slice f' n (layerIndex d ng n (- g)) a b = cellOf f' (layerCell d ng n (- g) a b)) by (intros; apply slice_layer; auto).
  assert (Ev : bcEuler k eos d ng ne n fd nI nJ nK blk =
     match k with
     | periodicRotLow | periodicRotHigh => Some (fst (fst r))
     | constantMassFluxSubsonicInlet =>
        let '(blk3, _, _) := layers ng (plusOf n) (snd (fst r) + plusOf n * (ng - 1)) (snd r - plusOf n * (ng - 1) - plusOf n) (fun h s2 blk =>
             forSlice d ng n h (fun a b c0 => massCell (f_QBc fd a b) (slice blk n s2 a b) c0) blk) (eosOver eos d ng n (fst (fst r))) in Some blk3
     | nullBc => Some blk
     | _ => Some (eosOver eos d ng n (fst (fst r)))
     end).
  { unfold bcEuler. rewrite idxs by auto. rewrite Lp. fold N.
    change (layers ng (plusOf n) (layerIndex d ng n 0) (layerIndex d ng n 2) _ blk) with r.
    destruct r as [[? ?] ?]. destruct k; reflexivity. }
  assert (Eos : (forall g a b, (0 <= g < ng)%Z -> onBface d ng n a b -> slice (eosOver eos d ng n (fst (fst r))) n (layerIndex d ng n (- g)) a b =
       eos (F a b (slice blk n (layerIndex d ng n 1) a b) (slice blk n (layerIndex d ng n (2 + g)) a b) (slice blk n (layerIndex d ng n (- g)) a b))) /\
     (forall s a b, ~ (exists g, (0 <= g < ng)%Z /\ s = layerIndex d ng n (- g) /\ onBface d ng n a b) -> slice (eosOver eos d ng n (fst (fst r))) n s a b = slice blk n s a b)).
  { split.
    - intros g a b G Ob. rewrite (proj1 (eosOver_slice d ng n Hn eos _ _ a b D1 D2 D3) g G eq_refl Ob). rewrite R1 by auto. reflexivity.
    - intros s a b NB. rewrite (proj2 (eosOver_slice d ng n Hn eos _ _ a b D1 D2 D3) NB). apply R2, NB. }
  destruct Eos as [E1 E2].
  assert (Std : bcEuler k eos d ng ne n fd nI nJ nK blk = Some (eosOver eos d ng n (fst (fst r))) -> (forall cM bQ c, finish k eos bQ cM c = eos c) ->
     exists blk', bcEuler k eos d ng ne n fd nI nJ nK blk = Some blk' /\
      (forall g a b, (0 <= g < ng)%Z -> onBface d ng n a b ->
         cellOf blk' (layerCell d ng n (- g) a b) =
         finish k eos (f_QBc fd a b) (cellOf blk (layerCell d ng n (1 + g) a b))
           (F a b (cellOf blk (layerCell d ng n 1 a b)) (cellOf blk (layerCell d ng n (2 + g) a b)) (cellOf blk (layerCell d ng n (- g) a b)))) /\
      (forall i j l, ~ behind d ng n i j l -> blk' i j l = blk i j l)).
  { intros Q Fi. exists (eosOver eos d ng n (fst (fst r))). split; [exact Q | ]. split.
    - intros g a b G Ob. rewrite <- Cell, E1 by auto. rewrite Fi. rewrite !slice_layer by auto. reflexivity.
    - apply O, E2. }
  assert (Per : bcEuler k eos d ng ne n fd nI nJ nK blk = Some (fst (fst r)) -> (forall cM bQ c, finish k eos bQ cM c = c) ->
     exists blk', bcEuler k eos d ng ne n fd nI nJ nK blk = Some blk' /\
      (forall g a b, (0 <= g < ng)%Z -> onBface d ng n a b ->
         cellOf blk' (layerCell d ng n (- g) a b) =
         finish k eos (f_QBc fd a b) (cellOf blk (layerCell d ng n (1 + g) a b))
           (F a b (cellOf blk (layerCell d ng n 1 a b)) (cellOf blk (layerCell d ng n (2 + g) a b)) (cellOf blk (layerCell d ng n (- g) a b)))) /\
      (forall i j l, ~ behind d ng n i j l -> blk' i j l = blk i j l)).
  { intros Q Fi. exists (fst (fst r)). split; [exact Q | ]. split.
    - intros g a b G Ob. rewrite <- Cell, R1 by auto. rewrite Fi. rewrite !slice_layer by auto. reflexivity.
    - apply O, R2. }
  assert (Mass : k = constantMassFluxSubsonicInlet ->
     exists blk', bcEuler k eos d ng ne n fd nI nJ nK blk = Some blk' /\
      (forall g a b, (0 <= g < ng)%Z -> onBface d ng n a b ->
         cellOf blk' (layerCell d ng n (- g) a b) =
         finish k eos (f_QBc fd a b) (cellOf blk (layerCell d ng n (1 + g) a b))
           (F a b (cellOf blk (layerCell d ng n 1 a b)) (cellOf blk (layerCell d ng n (2 + g) a b)) (cellOf blk (layerCell d ng n (- g) a b)))) /\
      (forall i j l, ~ behind d ng n i j l -> blk' i j l = blk i j l)).
  { intros Kq.
    set (e := eosOver eos d ng n (fst (fst r))) in *.
    set (F2 := fun a b (c1 c2 c0 : cell) => massCell (f_QBc fd a b) c2 c0).
    generalize (layers_spec d ng n F2 Hn Hg 1 1 e ltac:(lia) ltac:(lia)). cbv zeta.
    set (r2 := layers ng (plusOf n) (layerIndex d ng n 0) (layerIndex d ng n 1) _ e).
    intros (S1 & S2 & _ & _).
    assert (H2 : (snd (fst r) + plusOf n * (ng - 1))%Z = layerIndex d ng n 0).
    { rewrite R3. unfold layerIndex, plusOf. destruct Hg as [-> | ->]; destruct (Z.odd n); ring. }
    assert (I2 : (snd r - plusOf n * (ng - 1) - plusOf n)%Z = layerIndex d ng n 1).
    { rewrite R4. unfold layerIndex, plusOf. destruct Hg as [-> | ->]; destruct (Z.odd n); ring. }
    exists (fst (fst r2)). split; [ | split].
    - rewrite Ev, Kq, H2, I2.
      change (layers ng (plusOf n) (layerIndex d ng n 0) (layerIndex d ng n 1) _ e) with r2. destruct r2 as [[? ?] ?]. reflexivity.
    - intros g a b G Ob. rewrite <- Cell, S1 by auto. unfold F2.
      replace (slice e n (layerIndex d ng n (1 + g)) a b) with (slice blk n (layerIndex d ng n (1 + g)) a b).
      2: { symmetry. apply E2. intros (g' & G' & L & _). apply layer_inj in L. lia. }
      rewrite E1 by auto. rewrite Kq. cbn [finish]. rewrite !slice_layer by auto. reflexivity.
    - apply O. intros s a b NB. rewrite S2 by exact NB. apply E2, NB. }
  destruct k; first [ contradiction | apply Mass; reflexivity | apply Std; [ exact Ev | reflexivity ] | apply Per; [ exact Ev | reflexivity ] ].
Qed.
Lemma null_spec eos d ng ne n fd nI nJ nK blk : bcEuler nullBc eos d ng ne n fd nI nJ nK blk = Some blk. Proof. reflexivity. Qed.
Lemma normal_spec k nI nJ nK d ng n a b : isBface n -> k <> stagnationSubsonicInlet ->
  slice (loopNormal k nI nJ nK n) n (if Z.odd n then ng else nodesAlong d n + ng - 1)%Z a b = bfaceNormal d ng n nI nJ nK a b.
Proof.
  intros H Hk. unfold bfaceNormal, loopNormal, slice, cellAt.
  destruct (face_cases n H) as [->|[->|[->|[->|[->| ->]]]]]; destruct k; first [contradiction | reflexivity].
Qed.

(** * C50 *)
Section Setting.
Variables (eos : cell -> cell) (d : dims) (ng ne n : Z) (fd : faceData) (nI nJ nK : Z -> Z -> Z -> vec).
Hypothesis Hn : isBface n.
Hypothesis Hg : (ng = 1 \/ ng = 2)%Z.
Hypothesis D : (2 <= ni d /\ 2 <= nj d /\ 2 <= nk d)%Z.

Theorem C50_writes_only_the_halo : forall k blk, exists blk', bcEuler k eos d ng ne n fd nI nJ nK blk = Some blk' /\
  forall i j l, ~ behind d ng n i j l -> blk' i j l = blk i j l.
Proof.
  intros k blk. destruct D as (D1 & D2 & D3).
  assert (Hk : k = nullBc \/ k <> nullBc) by (destruct k; auto; right; discriminate).
  destruct Hk as [-> | Hk]; [ exists blk; split; reflexivity | ].
  destruct (euler_spec k eos d ng ne n fd nI nJ nK blk Hn Hg D1 D2 D3 Hk) as (blk' & E & _ & O). exists blk'. split; [exact E | exact O].
Qed.
(** every halo cell is a function of itself, the boundary data and the interior cells in line with it *)
Theorem C50_reads_only_in_line : forall k A B A' B', bcEuler k eos d ng ne n fd nI nJ nK A = Some A' -> bcEuler k eos d ng ne n fd nI nJ nK B = Some B' ->
  forall g a b, (0 <= g < ng)%Z -> onBface d ng n a b ->
  (forall m, (1 <= m <= ng + 1)%Z -> cellOf A (layerCell d ng n m a b) = cellOf B (layerCell d ng n m a b)) ->
  cellOf A (layerCell d ng n (- g) a b) = cellOf B (layerCell d ng n (- g) a b) ->
  cellOf A' (layerCell d ng n (- g) a b) = cellOf B' (layerCell d ng n (- g) a b).
Proof.
  intros k A B A' B' EA EB g a b G O L L0. destruct D as (D1 & D2 & D3).
  assert (Hk : k = nullBc \/ k <> nullBc) by (destruct k; auto; right; discriminate).
  destruct Hk as [-> | Hk]; [ cbn [bcEuler] in EA, EB; injection EA as <-; injection EB as <-; exact L0 | ].
  destruct (euler_spec k eos d ng ne n fd nI nJ nK A Hn Hg D1 D2 D3 Hk) as (A2 & E2 & HA & _).
  destruct (euler_spec k eos d ng ne n fd nI nJ nK B Hn Hg D1 D2 D3 Hk) as (B2 & F2 & HB & _).
  rewrite E2 in EA. injection EA as <-. rewrite F2 in EB. injection EB as <-.
  rewrite HA, HB by auto. rewrite L0, (L 1%Z), (L (2 + g)%Z), (L (1 + g)%Z) by (destruct Hg; lia). reflexivity.
Qed.
(** all of those cells are cells of the block *)
Theorem C50_reads_in_bounds : forall m, (- ng < m <= ng + 1)%Z -> (0 <= layerIndex d ng n m < nodesAlong d n + 2 * ng - 1)%Z.
Proof.
  intros m Hm. unfold layerIndex. assert (N : (2 <= nodesAlong d n)%Z) by (unfold nodesAlong; destruct (n <=? 2)%Z; [ | destruct (n <=? 4)%Z]; lia).
  destruct (Z.odd n); lia.
Qed.
Lemma euler_at k blk blk' : k <> nullBc -> bcEuler k eos d ng ne n fd nI nJ nK blk = Some blk' -> forall g a b, (0 <= g < ng)%Z -> onBface d ng n a b ->
     cellOf blk' (layerCell d ng n (- g) a b) =
     finish k eos (f_QBc fd a b) (cellOf blk (layerCell d ng n (1 + g) a b))
       (eulerCell k ne (plusOf n) fd (slice (loopNormal k nI nJ nK n) n (if Z.odd n then ng else nodesAlong d n + ng - 1)%Z a b) (f_qBc fd a b)
          (cellOf blk (layerCell d ng n 1 a b)) (cellOf blk (layerCell d ng n (2 + g) a b)) (cellOf blk (layerCell d ng n (- g) a b))).
Proof.
  intros Hk E. destruct D as (D1 & D2 & D3). destruct (euler_spec k eos d ng ne n fd nI nJ nK blk Hn Hg D1 D2 D3 Hk) as (A2 & E2 & HA & _).
  rewrite E2 in E. injection E as <-. exact HA.
Qed.
Hypothesis He : keepsPrimitives ne eos.
Hypothesis Hne : (5 <= ne)%Z.
Lemma inB l : (0 <= l < ne)%Z -> ((0 <=? l) && (l <? ne))%Z%bool = true.
Proof. intros Hl. apply andb_true_iff. rewrite Z.leb_le, Z.ltb_lt. lia. Qed.
(** the pressure at the two subsonic inlets is the linear extrapolation of the interior pressure, in every halo layer *)
Theorem C50_pressure_extrapolated : forall k blk blk', k = constantVelocitySubsonicInlet \/ k = constantMassFluxSubsonicInlet ->
  bcEuler k eos d ng ne n fd nI nJ nK blk = Some blk' -> forall a b p0 dp, onBface d ng n a b ->
  (forall m, (1 <= m <= ng + 1)%Z -> cq (cellOf blk (layerCell d ng n m a b)) 0%Z = p0 + dp * IZR m) ->
  forall m, (- ng < m <= 0)%Z -> cq (cellOf blk' (layerCell d ng n m a b)) 0%Z = p0 + dp * IZR m.
Proof.
  intros k blk blk' Hk E a b p0 dp O L m Hm. set (g := (- m)%Z). assert (G : (0 <= g < ng)%Z) by (unfold g; lia). replace m with (- g)%Z by (unfold g; lia).
  assert (Hk' : k <> nullBc) by (destruct Hk; subst; discriminate).
  rewrite (euler_at k blk blk' Hk' E g a b G O).
  assert (V : 2 * cq (cellOf blk (layerCell d ng n 1 a b)) 0%Z - cq (cellOf blk (layerCell d ng n (2 + g) a b)) 0%Z = p0 + dp * IZR (- g)).
  { rewrite !L by (destruct Hg; lia). rewrite plus_IZR, opp_IZR. ring. }
  destruct Hk as [-> | ->]; cbn [finish eulerCell massCell cq].
  - rewrite (proj1 He) by lia. cbn [setCq cq]. rewrite inB by lia. cbn [Z.eqb]. exact V.
  - unfold withVel at 1. cbn [Z.eqb]. rewrite (proj1 He) by lia. cbn [setCq cq]. rewrite inB by lia. unfold withVel. cbn [Z.eqb]. exact V.
Qed.
(** the velocity at both exits likewise, where the flow leaves the block *)
Theorem C50_velocity_extrapolated : forall k blk blk', k = constantPressureSubsonicExit \/ k = supersonicExit ->
  bcEuler k eos d ng ne n fd nI nJ nK blk = Some blk' -> forall a b, onBface d ng n a b ->
  inwards n * dotv (velocity (cellOf blk (layerCell d ng n 1 a b))) (bfaceNormal d ng n nI nJ nK a b) < 0 ->
  forall u0 du l, (1 <= l <= 3)%Z ->
  (forall m, (1 <= m <= ng + 1)%Z -> cq (cellOf blk (layerCell d ng n m a b)) l = u0 + du * IZR m) ->
  forall m, (- ng < m <= 0)%Z -> cq (cellOf blk' (layerCell d ng n m a b)) l = u0 + du * IZR m.
Proof.
  intros k blk blk' Hk E a b O Out u0 du l Hl L m Hm. set (g := (- m)%Z). assert (G : (0 <= g < ng)%Z) by (unfold g; lia). replace m with (- g)%Z by (unfold g; lia).
  assert (Hk' : k <> nullBc) by (destruct Hk; subst; discriminate).
  assert (Hk2 : k <> stagnationSubsonicInlet) by (destruct Hk; subst; discriminate).
  rewrite (euler_at k blk blk' Hk' E g a b G O). rewrite normal_spec by auto.
  set (N := bfaceNormal d ng n nI nJ nK a b) in *. set (c1 := cellOf blk (layerCell d ng n 1 a b)) in *. set (c2 := cellOf blk (layerCell d ng n (2 + g) a b)).
  assert (V : 2 * cq c1 l - cq c2 l = u0 + du * IZR (- g)).
  { unfold c1, c2. rewrite !L by (destruct Hg; lia). rewrite plus_IZR, opp_IZR. ring. }
  assert (X : exitVel N (plusOf n) (cq c1) (cq c2) = (2 * cq c1 1%Z - cq c2 1%Z, 2 * cq c1 2%Z - cq c2 2%Z, 2 * cq c1 3%Z - cq c2 3%Z)).
  { unfold exitVel. destruct (Rlt_dec 0 _) as [_ | NL]; [reflexivity | ]. exfalso. apply NL. unfold inwards, dotv, velocity in Out. rewrite vx_mk, vy_mk, vz_mk in Out.
    unfold plusOf. destruct (Z.odd n); nra. }
  assert (C : (l = 1 \/ l = 2 \/ l = 3)%Z) by lia.
  destruct Hk as [-> | ->]; cbn [finish eulerCell]; rewrite X; rewrite (proj1 He) by lia; cbn [setCq cq]; rewrite inB by lia;
    destruct C as [-> | [-> | ->]]; unfold withVel; cbn [Z.eqb Pos.eqb]; exact V.
Qed.

(** * C51 *)
Definition isWall (k : bcKind) : Prop := In k [adiabaticNoSlipWall; adiabaticSlipWall; adiabaticMovingWall; isoTNoSlipWall; isoTSlipWall; isoTMovingWall].
Lemma wall_val k blk blk' : isWall k -> bcEuler k eos d ng ne n fd nI nJ nK blk = Some blk' -> forall g a b, (0 <= g < ng)%Z -> onBface d ng n a b ->
  forall l, (0 <= l < 5)%Z -> cq (cellOf blk' (layerCell d ng n (- g) a b)) l =
   wallEuler (match k with isoTNoSlipWall | isoTSlipWall | isoTMovingWall => true | _ => false end) ne (bfaceNormal d ng n nI nJ nK a b) (f_qBc fd a b)
      (cq (cellOf blk (layerCell d ng n 1 a b))) (cq (cellOf blk (layerCell d ng n (- g) a b))) l.
Proof.
  intros Hk E g a b G O l Hl. unfold isWall in Hk. cbn [In] in Hk.
  assert (Hk' : k <> nullBc) by (intros ->; decompose [or] Hk; try discriminate; contradiction).
  assert (Hk2 : k <> stagnationSubsonicInlet) by (intros ->; decompose [or] Hk; try discriminate; contradiction).
  rewrite (euler_at k blk blk' Hk' E g a b G O). rewrite normal_spec by auto.
  destruct k; first [ exfalso; decompose [or] Hk; first [discriminate | contradiction] | cbn [finish eulerCell]; rewrite (proj1 He) by lia; reflexivity ].
Qed.
(** the mean of the halo's and of the first interior cell's velocity has no normal component; the reflection keeps speed, pressure and the tangential velocity *)
Theorem C51_impermeable : forall k blk blk', isWall k -> bcEuler k eos d ng ne n fd nI nJ nK blk = Some blk' ->
  forall g a b, (0 <= g < ng)%Z -> onBface d ng n a b -> unitv (bfaceNormal d ng n nI nJ nK a b) ->
  let h := cellOf blk' (layerCell d ng n (- g) a b) in let c := cellOf blk' (layerCell d ng n 1 a b) in let N := bfaceNormal d ng n nI nJ nK a b in
  c = cellOf blk (layerCell d ng n 1 a b) /\
  dotv (meanv (velocity h) (velocity c)) N = 0 /\ dotv (velocity h) (velocity h) = dotv (velocity c) (velocity c) /\ c_p h = c_p c /\
  (forall t, dotv t N = 0 -> dotv (velocity h) t = dotv (velocity c) t).
Proof.
  intros k blk blk' Hk E g a b G O U h c N.
  assert (Ec : c = cellOf blk (layerCell d ng n 1 a b)).
  { unfold c. destruct (C50_writes_only_the_halo k blk) as (b2 & E2 & W). rewrite E2 in E. injection E as <-.
    generalize (cellAt_layer d ng n 1 a b Hn). intros Q. destruct (layerCell d ng n 1 a b) as [[i j] l] eqn:Lc. cbn [cellOf]. apply W.
    intros (g' & a' & b' & G' & O' & Q'). rewrite <- Lc in Q'. rewrite <- !cellAt_layer in Q' by auto.
    generalize (faceCoord_cellAt n (layerIndex d ng n 1) a b Hn) (faceCoord_cellAt n (layerIndex d ng n (- g')) a' b' Hn).
    rewrite Q'. destruct (cellAt n (layerIndex d ng n (- g')) a' b') as [[i' j'] l']. intros -> Y. injection Y as Y _ _. apply layer_inj in Y. lia. }
  assert (H : forall l, (0 <= l < 5)%Z -> cq h l = wallEuler (match k with isoTNoSlipWall | isoTSlipWall | isoTMovingWall => true | _ => false end) ne N (f_qBc fd a b)
     (cq c) (cq (cellOf blk (layerCell d ng n (- g) a b))) l) by (intros l Hl; rewrite Ec; apply (wall_val k blk blk' Hk E g a b G O l Hl)).
  split; [exact Ec | ].
  assert (Hp : cq h 0%Z = cq c 0%Z).
  { rewrite H by lia. unfold wallEuler, mirrorU, withVel. cbn [Z.eqb]. rewrite inB by lia. reflexivity. }
  assert (H1 : cq h 1%Z = cq c 1%Z - 2 * dotv (velocity c) N * vx N) by (rewrite H by lia; reflexivity).
  assert (H2 : cq h 2%Z = cq c 2%Z - 2 * dotv (velocity c) N * vy N) by (rewrite H by lia; reflexivity).
  assert (H3 : cq h 3%Z = cq c 3%Z - 2 * dotv (velocity c) N * vz N) by (rewrite H by lia; reflexivity).
  unfold velocity at 1 3 4. rewrite H1, H2, H3. unfold unitv in U. fold N in U. unfold dotv, meanv, velocity in *.
  rewrite ?vx_mk, ?vy_mk, ?vz_mk in *.
  set (u := cq c 1%Z) in *. set (v := cq c 2%Z) in *. set (w := cq c 3%Z) in *. set (x := vx N) in *. set (y := vy N) in *. set (z := vz N) in *. set (un := u * x + v * y + w * z) in *.
  split; [ | split; [ | split]].
  - transitivity (un * (1 - (x * x + y * y + z * z))); [ unfold un; field | rewrite U; ring ].
  - transitivity (u * u + v * v + w * w - 4 * un * un * (1 - (x * x + y * y + z * z))); [ unfold un; ring | rewrite U; ring ].
  - exact Hp.
  - intros t T. rewrite H1, H2, H3. fold u v w x y z un. transitivity (u * vx t + v * vy t + w * vz t - 2 * un * (vx t * x + vy t * y + vz t * z)); [ ring | fold x y z in T; rewrite T; ring ].
Qed.

(** the velocity part of terms "preDqDxyz" *)
Lemma pre_spec k blk : k <> nullBc -> exists blk', bcPre k d ng n fd blk = Some blk' /\
  (forall g a b, (0 <= g < ng)%Z -> onBface d ng n a b ->
     cellOf blk' (layerCell d ng n (- g) a b) = preCell k (f_qBc fd a b) (cellOf blk (layerCell d ng n 1 a b)) (cellOf blk (layerCell d ng n (- g) a b))) /\
  (forall i j l, ~ behind d ng n i j l -> blk' i j l = blk i j l).
Proof.
  intros Hk. unfold bcPre. rewrite idxs by auto.
  assert (Lp : (layerIndex d ng n 1 + plusOf n)%Z = layerIndex d ng n 2) by (rewrite <- layer_step by auto; reflexivity). rewrite Lp.
  generalize (layers_spec d ng n (fun a b c1 _ c0 => preCell k (f_qBc fd a b) c1 c0) Hn Hg 1 2 blk ltac:(lia) ltac:(lia)). cbv zeta.
  set (r := layers ng (plusOf n) (layerIndex d ng n 0) (layerIndex d ng n 2) _ blk). intros (R1 & R2 & _ & _).
  exists (fst (fst r)). split; [ destruct k; first [contradiction | reflexivity] | ]. split.
  - intros g a b G O. rewrite <- !slice_layer by auto. apply R1; auto.
  - intros i j l NB. generalize (cellAt_faceCoord n i j l Hn). destruct (faceCoord n i j l) as [[s a] b]. intros C.
    assert (X : slice (fst (fst r)) n s a b = slice blk n s a b).
    { apply R2. intros (g & G & -> & Ob). apply NB. exists g, a, b. split; [exact G | ]. split; [exact Ob | ]. rewrite <- C. apply cellAt_layer; auto. }
    unfold slice in X. rewrite C in X. exact X.
Qed.
Theorem C51_no_slip : forall k blk blk', k = adiabaticNoSlipWall \/ k = isoTNoSlipWall -> bcPre k d ng n fd blk = Some blk' ->
  forall g a b, (0 <= g < ng)%Z -> onBface d ng n a b ->
  meanv (velocity (cellOf blk' (layerCell d ng n (- g) a b))) (velocity (cellOf blk (layerCell d ng n 1 a b))) = (0, 0, 0).
Proof.
  intros k blk blk' Hk E g a b G O. destruct (pre_spec k blk) as (b2 & E2 & P & _); [ destruct Hk; subst; discriminate | ].
  rewrite E2 in E. injection E as <-. rewrite P by auto.
  destruct Hk as [-> | ->]; unfold preCell, velocity, meanv, setCq, withVel; cbn [cq Z.eqb Pos.eqb]; rewrite ?vx_mk, ?vy_mk, ?vz_mk;
    repeat apply (f_equal2 pair); field.
Qed.
Theorem C51_moving_wall : forall k blk blk', k = adiabaticMovingWall \/ k = isoTMovingWall -> bcPre k d ng n fd blk = Some blk' ->
  forall g a b, (0 <= g < ng)%Z -> onBface d ng n a b ->
  meanv (velocity (cellOf blk' (layerCell d ng n (- g) a b))) (velocity (cellOf blk (layerCell d ng n 1 a b))) = (f_qBc fd a b 1%Z, f_qBc fd a b 2%Z, f_qBc fd a b 3%Z).
Proof.
  intros k blk blk' Hk E g a b G O. destruct (pre_spec k blk) as (b2 & E2 & P & _); [ destruct Hk; subst; discriminate | ].
  rewrite E2 in E. injection E as <-. rewrite P by auto.
  destruct Hk as [-> | ->]; unfold preCell, velocity, meanv, setCq, withVel; cbn [cq Z.eqb Pos.eqb]; rewrite ?vx_mk, ?vy_mk, ?vz_mk;
    repeat apply (f_equal2 pair); field.
Qed.
(** nothing else changes: only the velocity of halo cells *)
Theorem C51_viscous_step_writes_velocity_only : forall k blk, exists blk', bcPre k d ng n fd blk = Some blk' /\
  (forall i j l, ~ behind d ng n i j l -> blk' i j l = blk i j l) /\
  (forall i j l, cQ (blk' i j l) = cQ (blk i j l) /\ ch (blk' i j l) = ch (blk i j l) /\ forall m, ~ (1 <= m <= 3)%Z -> cq (blk' i j l) m = cq (blk i j l) m).
Proof.
  intros k blk. assert (Hk : k = nullBc \/ k <> nullBc) by (destruct k; auto; right; discriminate).
  destruct Hk as [-> | Hk]; [ exists blk; split; [reflexivity | ]; split; [reflexivity | ]; intros; split; [reflexivity | ]; split; reflexivity | ].
  destruct (pre_spec k blk Hk) as (b2 & E & P & W). exists b2. split; [exact E | ]. split; [exact W | ]. intros i j l.
  generalize (cellAt_faceCoord n i j l Hn). destruct (faceCoord n i j l) as [[s a] b] eqn:F. intros C.
  assert (Dec : behind d ng n i j l \/ ~ behind d ng n i j l).
  { assert (Db : onBface d ng n a b \/ ~ onBface d ng n a b).
    { unfold onBface. destruct (n <=? 2)%Z; [ | destruct (n <=? 4)%Z]; lia. }
    destruct Db as [Ob | Nb].
    - set (g := (if Z.odd n then ng - 1 - s else s - nodesAlong d n - ng + 1)%Z).
      assert (Lg : layerIndex d ng n (- g) = s) by (unfold layerIndex, g; destruct (Z.odd n); lia).
      destruct (Z_le_dec 0 g) as [g0 | g0]; [destruct (Z_lt_dec g ng) as [g1 | g1] | ].
      + left. exists g, a, b. split; [lia | ]. split; [exact Ob | ]. rewrite <- cellAt_layer by auto. rewrite Lg. symmetry. exact C.
      + right. intros (g' & a' & b' & G' & O' & Q'). rewrite <- cellAt_layer in Q' by auto. generalize (faceCoord_cellAt n (layerIndex d ng n (- g')) a' b' Hn). rewrite <- Q', F. intros Y. injection Y as Y _ _. rewrite <- Lg in Y. apply layer_inj in Y. lia.
      + right. intros (g' & a' & b' & G' & O' & Q'). rewrite <- cellAt_layer in Q' by auto. generalize (faceCoord_cellAt n (layerIndex d ng n (- g')) a' b' Hn). rewrite <- Q', F. intros Y. injection Y as Y _ _. rewrite <- Lg in Y. apply layer_inj in Y. lia.
    - right. intros (g' & a' & b' & G' & O' & Q'). rewrite <- cellAt_layer in Q' by auto. generalize (faceCoord_cellAt n (layerIndex d ng n (- g')) a' b' Hn). rewrite <- Q', F. intros Y. injection Y as _ -> ->. contradiction. }
  destruct Dec as [B | N].
  - destruct B as (g & a' & b' & G & O & Q). specialize (P g a' b' G O). rewrite <- Q in P. cbn [cellOf] in P. rewrite P.
    destruct k; try contradiction; cbn [preCell setCq cQ ch cq]; (split; [reflexivity | ]; split; [reflexivity | ]; intros m Hm);
      first [ reflexivity | unfold withVel; destruct (Z.eqb_spec m 1); [lia | ]; destruct (Z.eqb_spec m 2); [lia | ]; destruct (Z.eqb_spec m 3); [lia | ]; reflexivity ].
  - rewrite W by exact N. split; [reflexivity | ]; split; reflexivity.
Qed.

(** * C52 *)
(** what holds: the halo (not the face) gets the wall temperature *)
Theorem C52_halo_temperature_partial : forall k blk blk', k = isoTNoSlipWall \/ k = isoTSlipWall \/ k = isoTMovingWall ->
  bcEuler k eos d ng ne n fd nI nJ nK blk = Some blk' -> forall g a b, (0 <= g < ng)%Z -> onBface d ng n a b ->
  cq (cellOf blk' (layerCell d ng n (- g) a b)) 4%Z = f_qBc fd a b 4%Z.
Proof.
  intros k blk blk' Hk E g a b G O. assert (W : isWall k) by (unfold isWall; cbn [In]; destruct Hk as [-> | [-> | ->]]; intuition).
  rewrite (wall_val k blk blk' W E g a b G O) by lia. destruct Hk as [-> | [-> | ->]]; unfold wallEuler, mirrorU, withVel; cbn [Z.eqb Pos.eqb andb]; rewrite inB by lia; reflexivity.
Qed.
(** so the face value, the mean of the cells on both sides, is not the wall temperature unless the interior already has it *)
Theorem C52_face_temperature_refuted : forall k blk blk', k = isoTNoSlipWall \/ k = isoTSlipWall \/ k = isoTMovingWall ->
  bcEuler k eos d ng ne n fd nI nJ nK blk = Some blk' -> forall a b, onBface d ng n a b ->
  cq (cellOf blk (layerCell d ng n 1 a b)) 4%Z <> f_qBc fd a b 4%Z ->
  (cq (cellOf blk' (layerCell d ng n 0 a b)) 4%Z + cq (cellOf blk (layerCell d ng n 1 a b)) 4%Z) / 2 <> f_qBc fd a b 4%Z.
Proof.
  intros k blk blk' Hk E a b O H. change (layerCell d ng n 0 a b) with (layerCell d ng n (- 0) a b). rewrite (C52_halo_temperature_partial k blk blk' Hk E 0%Z a b ltac:(destruct Hg; lia) O). lra.
Qed.

(** * C53 *)
Theorem C53_mass_flux_delivered : forall blk blk', bcEuler constantMassFluxSubsonicInlet eos d ng ne n fd nI nJ nK blk = Some blk' ->
  forall g a b, (0 <= g < ng)%Z -> onBface d ng n a b ->
  let h := cellOf blk' (layerCell d ng n (- g) a b) in let c := cellOf blk (layerCell d ng n (1 + g) a b) in
  0 < c_rho h + c_rho c -> forall l, (1 <= l <= 3)%Z -> ((c_rho h + c_rho c) / 2) * ((cq h l + cq c l) / 2) = f_QBc fd a b l.
Proof.
  intros blk blk' E g a b G O h c R l Hl. unfold h in *.
  rewrite (euler_at constantMassFluxSubsonicInlet blk blk' ltac:(discriminate) E g a b G O) in R |- *. cbn [finish] in R |- *. fold c in R |- *.
  set (e := eos _) in *. assert (C : (l = 1 \/ l = 2 \/ l = 3)%Z) by lia.
  unfold c_rho in *. destruct C as [-> | [-> | ->]]; cbn [massCell cQ cq] in *; unfold withVel in *; cbn [Z.eqb Pos.eqb] in *; field; lra.
Qed.
(** with the targets prepared from a mass flux per unit area, the mass entering through each unit of face is that value *)
Theorem C53_prescribed_inflow : forall blk blk' mDot, bcEuler constantMassFluxSubsonicInlet eos d ng ne n fd nI nJ nK blk = Some blk' ->
  (forall a b l, f_QBc fd a b l = massTarget d ng n nI nJ nK mDot a b l) ->
  forall a b, onBface d ng n a b -> unitv (bfaceNormal d ng n nI nJ nK a b) ->
  let h := cellOf blk' (layerCell d ng n 0 a b) in let c := cellOf blk (layerCell d ng n 1 a b) in
  0 < c_rho h + c_rho c ->
  (c_rho h + c_rho c) / 2 * (inwards n * dotv (meanv (velocity h) (velocity c)) (bfaceNormal d ng n nI nJ nK a b)) = mDot.
Proof.
  intros blk blk' mDot E T a b O U h c R.
  assert (F : forall l, (1 <= l <= 3)%Z -> ((c_rho h + c_rho c) / 2) * ((cq h l + cq c l) / 2) = massTarget d ng n nI nJ nK mDot a b l).
  { intros l Hl. rewrite <- T. apply (C53_mass_flux_delivered blk blk' E 0%Z a b); auto. destruct Hg; lia. }
  assert (Tn : forall l, massTarget d ng n nI nJ nK mDot a b l = let N := bfaceNormal d ng n nI nJ nK a b in
     if (l =? 1)%Z then inwards n * vx N * mDot else if (l =? 2)%Z then inwards n * vy N * mDot else if (l =? 3)%Z then inwards n * vz N * mDot else 0).
  { intros l. unfold massTarget, bfaceNormal, inwards, nodesAlong.
    destruct (face_cases n Hn) as [->|[->|[->|[->|[->| ->]]]]]; cbn [Z.eqb Pos.eqb orb Z.odd Z.leb Z.compare Pos.compare Pos.compare_cont]; try reflexivity;
      match goal with |- context [(?x + 2 * ng - (ng + 1))%Z] => replace (x + 2 * ng - (ng + 1))%Z with (x + ng - 1)%Z by ring end; reflexivity. }
  set (N := bfaceNormal d ng n nI nJ nK a b) in *.
  assert (F1 := F 1%Z ltac:(lia)). assert (F2 := F 2%Z ltac:(lia)). assert (F3 := F 3%Z ltac:(lia)). rewrite Tn in F1, F2, F3. cbv zeta in F1, F2, F3. cbn [Z.eqb Pos.eqb] in F1, F2, F3.
  assert (I2 : inwards n * inwards n = 1) by (unfold inwards; destruct (Z.odd n); ring).
  transitivity (inwards n * ((c_rho h + c_rho c) / 2 * ((cq h 1%Z + cq c 1%Z) / 2) * vx N + (c_rho h + c_rho c) / 2 * ((cq h 2%Z + cq c 2%Z) / 2) * vy N +
     (c_rho h + c_rho c) / 2 * ((cq h 3%Z + cq c 3%Z) / 2) * vz N)).
  - unfold dotv, meanv, velocity. rewrite ?vx_mk, ?vy_mk, ?vz_mk. ring.
  - rewrite F1, F2, F3. unfold unitv, dotv in U. transitivity (inwards n * inwards n * (vx N * vx N + vy N * vy N + vz N * vz N) * mDot); [ring | rewrite I2, U; ring].
Qed.
(** momentum and total energy in the halo match the velocity it was given *)
Theorem C53_halo_coherent : forall blk blk', bcEuler constantMassFluxSubsonicInlet eos d ng ne n fd nI nJ nK blk = Some blk' ->
  (forall c, coherentCell (eos c)) -> forall g a b, (0 <= g < ng)%Z -> onBface d ng n a b -> coherentCell (cellOf blk' (layerCell d ng n (- g) a b)).
Proof.
  intros blk blk' E Co g a b G O. rewrite (euler_at constantMassFluxSubsonicInlet blk blk' ltac:(discriminate) E g a b G O). cbn [finish].
  set (c := cellOf blk (layerCell d ng n (1 + g) a b)). set (c0 := eulerCell _ _ _ _ _ _ _ _ _). set (e := eos c0).
  destruct (Co c0) as (_ & _ & _ & C4). fold e in C4.
  assert (V : dotv (velocity e) (velocity e) = 0).
  { unfold dotv, velocity, e. rewrite ?vx_mk, ?vy_mk, ?vz_mk. rewrite !(proj1 He) by lia. unfold c0. cbn [eulerCell setCq cq]. rewrite !inB by lia. unfold withVel. cbn [Z.eqb Pos.eqb]. ring. }
  rewrite V in C4. unfold coherentCell, c_E, c_rho, c_re, dotv, velocity in *. rewrite ?vx_mk, ?vy_mk, ?vz_mk.
  cbn [massCell cQ cq ch] in *. unfold withVel. cbn [Z.eqb Pos.eqb]. split; [ring | ]. split; [ring | ]. split; [ring | ]. rewrite C4.
  generalize (4 * f_QBc fd a b 1%Z / (cQ e 0%Z + cQ c 0%Z) - cq c 1%Z) (4 * f_QBc fd a b 2%Z / (cQ e 0%Z + cQ c 0%Z) - cq c 2%Z) (4 * f_QBc fd a b 3%Z / (cQ e 0%Z + cQ c 0%Z) - cq c 3%Z).
  intros u v w. field.
Qed.

(** * C54 *)
Theorem C54_supersonic_exit_admissible : forall blk blk', bcEuler supersonicExit eos d ng ne n fd nI nJ nK blk = Some blk' ->
  forall g a b, (0 <= g < ng)%Z -> onBface d ng n a b ->
  let h := cellOf blk' (layerCell d ng n (- g) a b) in let c := cellOf blk (layerCell d ng n 1 a b) in
  0 <= c_p c -> 0 <= c_p h <= c_p c /\ 0 <= cq h 4%Z /\ forall l, (5 <= l < ne)%Z -> 0 <= cq h l <= 1.
Proof.
  intros blk blk' E g a b G O h c P. unfold h. rewrite (euler_at supersonicExit blk blk' ltac:(discriminate) E g a b G O). cbn [finish eulerCell]. fold c.
  destruct (exitVel _ _ _ _) as [[u v] w]. unfold c_p in *.
  split; [ | split].
  - rewrite (proj1 He) by lia. cbn [setCq cq]. rewrite inB by lia. unfold withVel. cbn [Z.eqb Pos.eqb].
    split; [ apply Rmin_glb; [apply Rmax_l | exact P] | apply Rmin_r ].
  - rewrite (proj1 He) by lia. cbn [setCq cq]. rewrite inB by lia. unfold withVel. cbn [Z.eqb Pos.eqb]. apply Rmax_l.
  - intros l Hl.
    assert (B : forall x, 0 <= Rmax 0 (Rmin 1 x) <= 1) by (intros x; split; [apply Rmax_l | apply Rmax_lub; [lra | apply Rmin_l]]).
    assert (Q : forall q : Z -> R, (forall q0 : Z -> R, True) -> True) by auto.
    set (q := fun l0 : Z => if ((0 <=? l0) && (l0 <? ne))%Z%bool then _ else _).
    assert (V : 0 <= q l <= 1).
    { unfold q. rewrite inB by lia. unfold withVel.
      destruct (Z.eqb_spec l 1); [lia | ]. destruct (Z.eqb_spec l 2); [lia | ]. destruct (Z.eqb_spec l 3); [lia | ]. destruct (Z.eqb_spec l 0); [lia | ]. destruct (Z.eqb_spec l 4); [lia | ]. apply B. }
    rewrite (proj2 He) by (cbn [setCq cq]; auto). cbn [setCq cq]. exact V.
Qed.
(** on reverse flow both exits act as a slip wall *)
Theorem C54_reverse_flow_blocked : forall k blk blk', k = constantPressureSubsonicExit \/ k = supersonicExit ->
  bcEuler k eos d ng ne n fd nI nJ nK blk = Some blk' -> forall g a b, (0 <= g < ng)%Z -> onBface d ng n a b ->
  let c := cellOf blk (layerCell d ng n 1 a b) in let N := bfaceNormal d ng n nI nJ nK a b in unitv N -> 0 <= inwards n * dotv (velocity c) N ->
  dotv (meanv (velocity (cellOf blk' (layerCell d ng n (- g) a b))) (velocity c)) N = 0.
Proof.
  intros k blk blk' Hk E g a b G O c N U In. 
  assert (Hk' : k <> nullBc) by (destruct Hk; subst; discriminate).
  assert (Hk2 : k <> stagnationSubsonicInlet) by (destruct Hk; subst; discriminate).
  set (h := cellOf blk' _). set (c2 := cellOf blk (layerCell d ng n (2 + g) a b)).
  assert (X : forall l, (1 <= l <= 3)%Z -> cq h l = let '(u, v, w) := exitVel N (plusOf n) (cq c) (cq c2) in withVel (fun _ => 0) u v w l).
  { intros l Hl. unfold h. rewrite (euler_at k blk blk' Hk' E g a b G O). rewrite normal_spec by auto. fold N c c2.
    assert (Cl : (l = 1 \/ l = 2 \/ l = 3)%Z) by lia.
    destruct Hk as [-> | ->]; cbn [finish eulerCell]; destruct (exitVel _ _ _ _) as [[u v] w]; rewrite (proj1 He) by lia; cbn [setCq cq]; rewrite inB by lia;
      destruct Cl as [-> | [-> | ->]]; reflexivity. }
  assert (P2 : IZR (plusOf n) = inwards n) by (unfold plusOf, inwards; destruct (Z.odd n); reflexivity).
  assert (I2 : inwards n * inwards n = 1) by (unfold inwards; destruct (Z.odd n); ring).
  assert (X1 := X 1%Z ltac:(lia)). assert (X2 := X 2%Z ltac:(lia)). assert (X3 := X 3%Z ltac:(lia)). clear X.
  unfold dotv, meanv, velocity, unitv in *. rewrite ?vx_mk, ?vy_mk, ?vz_mk in *. rewrite ?vx_mk, ?vy_mk, ?vz_mk in U.
  unfold exitVel in *. rewrite P2 in *.
  destruct (Rlt_dec 0 _) as [L | _]; [exfalso; nra | ]. unfold withVel in *. cbn [Z.eqb Pos.eqb] in *. rewrite X1, X2, X3. unfold dotv in U.
  set (u := cq c 1%Z) in *. set (v := cq c 2%Z) in *. set (w := cq c 3%Z) in *. set (x := vx N) in *. set (y := vy N) in *. set (z := vz N) in *.
  transitivity ((u * x + v * y + w * z) * (1 - (inwards n * inwards n) * (x * x + y * y + z * z))); [ field | rewrite I2, U; ring ].
Qed.
End Setting.
