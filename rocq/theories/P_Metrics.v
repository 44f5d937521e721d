(** C19-C22: metrics and gradients. *)
From Coq Require Import Reals ZArith List Bool Lia Lra.
From Verif Require Import M_Topology M_Halo M_Grid M_Metrics S_Metrics S_Sum L_Grid1 L_Grid3 L_Sum L_Vec.
Import ListNotations.
Open Scope R_scope.

Ltac ngen := repeat match goal with |- context [?X ?i ?j ?k] => match type of X with nodes => generalize (X i j k); intro end end.

(** C19 *)
Theorem C19_cell_faces_close : forall X i j k,
  vadd (vsub (iArea X (i+1)%Z j k) (iArea X i j k))
   (vadd (vsub (jArea X i (j+1)%Z k) (jArea X i j k)) (vsub (kArea X i j (k+1)%Z) (kArea X i j k))) = vzero.
Proof. intros. unfold iArea, jArea, kArea. ngen. generalize (1/2). clear. intros. vext; ring. Qed.

(** corners of a box cell *)
Lemma box_corner X i j k x1 a b c u v w i' j' k' : boxCell X i j k x1 a b c -> (0 <= u <= 1)%Z -> (0 <= v <= 1)%Z -> (0 <= w <= 1)%Z ->
  (i' = i + u)%Z -> (j' = j + v)%Z -> (k' = k + w)%Z ->
  X i' j' k' = vadd x1 (vadd (vscale (IZR u) a) (vadd (vscale (IZR v) b) (vscale (IZR w) c))).
Proof. intros H U V W -> -> ->. now apply H. Qed.

Section Box.
Variables (X : nodes) (i j k : Z) (x1 a b c : vec).
Hypothesis HB : boxCell X i j k x1 a b c.
Lemma c000 : X i j k = x1. Proof. rewrite (box_corner _ _ _ _ _ _ _ _ 0 0 0 i j k HB) by lia. vext; ring. Qed.
Lemma c100 : X (i+1)%Z j k = vadd x1 a. Proof. rewrite (box_corner _ _ _ _ _ _ _ _ 1 0 0 (i+1) j k HB) by lia. vext; ring. Qed.
Lemma c010 : X i (j+1)%Z k = vadd x1 b. Proof. rewrite (box_corner _ _ _ _ _ _ _ _ 0 1 0 i (j+1) k HB) by lia. vext; ring. Qed.
Lemma c001 : X i j (k+1)%Z = vadd x1 c. Proof. rewrite (box_corner _ _ _ _ _ _ _ _ 0 0 1 i j (k+1) HB) by lia. vext; ring. Qed.
Lemma c110 : X (i+1)%Z (j+1)%Z k = vadd x1 (vadd a b). Proof. rewrite (box_corner _ _ _ _ _ _ _ _ 1 1 0 (i+1) (j+1) k HB) by lia. vext; ring. Qed.
Lemma c101 : X (i+1)%Z j (k+1)%Z = vadd x1 (vadd a c). Proof. rewrite (box_corner _ _ _ _ _ _ _ _ 1 0 1 (i+1) j (k+1) HB) by lia. vext; ring. Qed.
Lemma c011 : X i (j+1)%Z (k+1)%Z = vadd x1 (vadd b c). Proof. rewrite (box_corner _ _ _ _ _ _ _ _ 0 1 1 i (j+1) (k+1) HB) by lia. vext; ring. Qed.
Lemma c111 : X (i+1)%Z (j+1)%Z (k+1)%Z = vadd x1 (vadd a (vadd b c)). Proof. rewrite (box_corner _ _ _ _ _ _ _ _ 1 1 1 (i+1) (j+1) (k+1) HB) by lia. vext; ring. Qed.

Lemma box_raw : rawVolume X i j k = det3 a b c.
Proof.
  unfold rawVolume, iArea, jArea, kArea. rewrite c000, c100, c010, c001, c110, c101, c011, c111. generalize x1 a b c. clear. intros. vcomp. field.
Qed.
Lemma box_E : ddE X i j k = a. Proof. unfold ddE. rewrite c000, c100, c010, c001, c110, c101, c011, c111. generalize x1 a b c. clear. intros. vext; field. Qed.
Lemma box_N : ddN X i j k = b. Proof. unfold ddN. rewrite c000, c100, c010, c001, c110, c101, c011, c111. generalize x1 a b c. clear. intros. vext; field. Qed.
Lemma box_C : ddC X i j k = c. Proof. unfold ddC. rewrite c000, c100, c010, c001, c110, c101, c011, c111. generalize x1 a b c. clear. intros. vext; field. Qed.
End Box.

Lemma tiny_pos : 0 < tiny. Proof. unfold tiny. apply Rinv_0_lt_compat. lra. Qed.

(** C20: the stored volume of a parallelepiped cell is its determinant (clipped from below at 1e-16). *)
Theorem C20_volume : forall X i j k x1 a b c, boxCell X i j k x1 a b c -> tiny <= det3 a b c ->
  volume X i j k = det3 a b c.
Proof. intros. unfold volume, clip. rewrite (box_raw _ _ _ _ _ _ _ _ H). apply Rmax_left. auto. Qed.

(** ... and the stored metric terms are the rows of the inverse of the matrix with columns a, b, c. *)
Theorem C20_inverse_jacobian : forall X i j k x1 a b c, boxCell X i j k x1 a b c -> tiny <= det3 a b c ->
  let E := gradE X i j k in let N := gradN X i j k in let C := gradC X i j k in
  (dot3 E a = 1 /\ dot3 E b = 0 /\ dot3 E c = 0) /\
  (dot3 N a = 0 /\ dot3 N b = 1 /\ dot3 N c = 0) /\
  (dot3 C a = 0 /\ dot3 C b = 0 /\ dot3 C c = 1).
Proof.
  intros X i j k x1 a b c H D E N C. pose proof tiny_pos.
  assert (Dn: det3 a b c <> 0) by lra.
  subst E N C. unfold gradE, gradN, gradC. rewrite (C20_volume _ _ _ _ _ _ _ _ H D).
  rewrite (box_E _ _ _ _ _ _ _ _ H), (box_N _ _ _ _ _ _ _ _ H), (box_C _ _ _ _ _ _ _ _ H).
  vcomp.
  repeat split; field; auto.
Qed.

(** Volumes are exactly additive on every grid, however distorted: the sum of the unclipped volumes
    over any box of cells depends only on its boundary faces (discrete Gauss theorem with a corner of
    each face), so the total volume of a block is fixed by its surface. *)
Theorem C20_volume_additive : forall X l h,
  (fst (fst l) <= fst (fst h))%Z -> (snd (fst l) <= snd (fst h))%Z -> (snd l <= snd h)%Z ->
  sum3 l h (rawVolume X) =
  sum2 (snd (fst l)) (snd (fst h)) (snd l) (snd h)
    (fun j k => dot3 (X (fst (fst h)) j k) (iArea X (fst (fst h)) j k) / 3 - dot3 (X (fst (fst l)) j k) (iArea X (fst (fst l)) j k) / 3) +
  sum2 (fst (fst l)) (fst (fst h)) (snd l) (snd h)
    (fun i k => dot3 (X i (snd (fst h)) k) (jArea X i (snd (fst h)) k) / 3 - dot3 (X i (snd (fst l)) k) (jArea X i (snd (fst l)) k) / 3) +
  sum2 (fst (fst l)) (fst (fst h)) (snd (fst l)) (snd (fst h))
    (fun i j => dot3 (X i j (snd h)) (kArea X i j (snd h)) / 3 - dot3 (X i j (snd l)) (kArea X i j (snd l)) / 3).
Proof.
  intros X l h H1 H2 H3.
  rewrite (sum3_ext l h (rawVolume X) (fun i j k =>
     ((- (dot3 (X i j k) (iArea X i j k) / 3)) - (- (dot3 (X (i+1)%Z j k) (iArea X (i+1)%Z j k) / 3))) +
     ((- (dot3 (X i j k) (jArea X i j k) / 3)) - (- (dot3 (X i (j+1)%Z k) (jArea X i (j+1)%Z k) / 3))) +
     ((- (dot3 (X i j k) (kArea X i j k) / 3)) - (- (dot3 (X i j (k+1)%Z) (kArea X i j (k+1)%Z) / 3))))).
  - rewrite (sum3_div l h (fun i j k => - (dot3 (X i j k) (iArea X i j k) / 3)) (fun i j k => - (dot3 (X i j k) (jArea X i j k) / 3)) (fun i j k => - (dot3 (X i j k) (kArea X i j k) / 3))) by auto.
    f_equal; [f_equal|]; unfold sum2; apply sumZ_ext; intros; apply sumZ_ext; intros; ring.
  - intros i j k _ _ _. unfold rawVolume, iArea, jArea, kArea. ngen. clear. vcomp. field.
Qed.

(** C21 *)
Theorem C21_area_positive : forall s, tiny <= faceSize s.
Proof. intros. unfold faceSize, clip. apply Rmax_r. Qed.
Theorem C21_unit_normal : forall s, tiny <= sqrt (dot3 s s) ->
  faceSize s = sqrt (dot3 s s) /\ dot3 (faceNormal s) (faceNormal s) = 1 /\ vscale (faceSize s) (faceNormal s) = s.
Proof.
  intros s H. pose proof tiny_pos.
  assert (E: faceSize s = sqrt (dot3 s s)) by (unfold faceSize, clip, dot3 in *; apply Rmax_left; auto).
  split; auto. unfold faceNormal. rewrite E. set (r := sqrt (dot3 s s)) in *.
  assert (R: r * r = dot3 s s). { apply sqrt_sqrt. unfold dot3. vcomp. nra. }
  split.
  - transitivity (dot3 s s / (r * r)). { vcomp. field. lra. } rewrite <- R. field. lra.
  - vext; field; lra.
Qed.
(** below the clip the normal is shorter than a unit vector but still parallel to the area *)
Theorem C21_degenerate_normal : forall s, sqrt (dot3 s s) <= tiny ->
  faceSize s = tiny /\ dot3 (faceNormal s) (faceNormal s) <= 1 /\ vscale tiny (faceNormal s) = s.
Proof.
  intros s H. pose proof tiny_pos.
  assert (E: faceSize s = tiny) by (unfold faceSize, clip, dot3 in *; apply Rmax_right; auto).
  split; auto. unfold faceNormal. rewrite E. split.
  - assert (P: 0 <= dot3 s s) by (unfold dot3; vcomp; nra).
    assert (R: dot3 s s <= tiny * tiny). { rewrite <- (sqrt_sqrt (dot3 s s)) by auto. pose proof (sqrt_pos (dot3 s s)). apply Rmult_le_compat; auto. }
    assert (G: dot3 (vx s / tiny, vy s / tiny, vz s / tiny) (vx s / tiny, vy s / tiny, vz s / tiny) = dot3 s s / (tiny * tiny)).
    { vcomp. field. lra. }
    rewrite G. apply Rmult_le_reg_r with (tiny * tiny); [nra|]. unfold Rdiv. rewrite Rmult_assoc, Rinv_l by nra. lra.
  - vext; field; lra.
Qed.

(** C22 *)
Lemma affine_box X o a b c i j k : affineGrid X o a b c -> boxCell X i j k (X i j k) a b c.
Proof.
  intros H u v w _ _ _. rewrite !H. rewrite !plus_IZR. vext; ring.
Qed.
Lemma affine_centre X o a b c i j k : affineGrid X o a b c ->
  cellCentre X i j k = vadd o (vadd (vscale (IZR i + 1/2) a) (vadd (vscale (IZR j + 1/2) b) (vscale (IZR k + 1/2) c))).
Proof. intros H. unfold cellCentre. rewrite !H, !plus_IZR. generalize (IZR i) (IZR j) (IZR k). clear. intros. vext; field. Qed.

(** gradient reconstruction from index differences: if each index difference of q equals g . edge the
    result is g *)
Lemma grad_exact a b c g (E N C : vec) : det3 a b c <> 0 ->
  (dot3 E a = 1 /\ dot3 E b = 0 /\ dot3 E c = 0) -> (dot3 N a = 0 /\ dot3 N b = 1 /\ dot3 N c = 0) -> (dot3 C a = 0 /\ dot3 C b = 0 /\ dot3 C c = 1) ->
  vadd (vscale (dot3 g a) E) (vadd (vscale (dot3 g b) N) (vscale (dot3 g c) C)) = g.
Proof.
  intros D (A1 & A2 & A3) (B1 & B2 & B3) (C1 & C2 & C3).
  set (r := vsub (vadd (vscale (dot3 g a) E) (vadd (vscale (dot3 g b) N) (vscale (dot3 g c) C))) g).
  assert (Ra: dot3 r a = 0) by (transitivity (dot3 g a * dot3 E a + dot3 g b * dot3 N a + dot3 g c * dot3 C a - dot3 g a); [unfold r; clear; vcomp; ring|rewrite A1, B1, C1; ring]).
  assert (Rb: dot3 r b = 0) by (transitivity (dot3 g a * dot3 E b + dot3 g b * dot3 N b + dot3 g c * dot3 C b - dot3 g b); [unfold r; clear; vcomp; ring|rewrite A2, B2, C2; ring]).
  assert (Rc: dot3 r c = 0) by (transitivity (dot3 g a * dot3 E c + dot3 g b * dot3 N c + dot3 g c * dot3 C c - dot3 g c); [unfold r; clear; vcomp; ring|rewrite A3, B3, C3; ring]).
  assert (Hx: det3 a b c * vx r = 0).
  { replace (det3 a b c * vx r) with (dot3 r a * vx (cross b c) + dot3 r b * vx (cross c a) + dot3 r c * vx (cross a b)) by (clearbody r; clear; vcomp; ring).
    rewrite Ra, Rb, Rc. ring. }
  assert (Hy: det3 a b c * vy r = 0).
  { replace (det3 a b c * vy r) with (dot3 r a * vy (cross b c) + dot3 r b * vy (cross c a) + dot3 r c * vy (cross a b)) by (clearbody r; clear; vcomp; ring).
    rewrite Ra, Rb, Rc. ring. }
  assert (Hz: det3 a b c * vz r = 0).
  { replace (det3 a b c * vz r) with (dot3 r a * vz (cross b c) + dot3 r b * vz (cross c a) + dot3 r c * vz (cross a b)) by (clearbody r; clear; vcomp; ring).
    rewrite Ra, Rb, Rc. ring. }
  apply Rmult_integral in Hx, Hy, Hz. destruct Hx as [|Hx]; [contradiction|]. destruct Hy as [|Hy]; [contradiction|]. destruct Hz as [|Hz]; [contradiction|].
  clear - Hx Hy Hz. unfold r in *. apply vec_eq; [clear Hy Hz|clear Hx Hz|clear Hx Hy]; vcomp; lra.
Qed.

Theorem C22_linear_exact_2nd : forall X o a b c q c0 g i j k, affineGrid X o a b c -> tiny <= det3 a b c ->
  (forall i j k, q i j k = linearField c0 g (cellCentre X i j k)) ->
  dq2FD X q i j k = g.
Proof.
  intros X o a b c q c0 g i j k H D Hq. pose proof tiny_pos.
  pose proof (affine_box X o a b c i j k H) as B.
  pose proof (C20_inverse_jacobian X i j k (X i j k) a b c B D) as (PE & PN & PC).
  transitivity (vadd (vscale (dot3 g a) (gradE X i j k)) (vadd (vscale (dot3 g b) (gradN X i j k)) (vscale (dot3 g c) (gradC X i j k)))); [|apply (grad_exact a b c); auto; lra].
  unfold dq2FD.
  assert (dE: 5/10 * (q (i+1)%Z j k - q (i-1)%Z j k) = dot3 g a).
  { rewrite !Hq, !(affine_centre _ _ _ _ _ _ _ _ H), !plus_IZR, minus_IZR. generalize (IZR i) (IZR j) (IZR k). clear. intros. unfold linearField. vcomp. field. }
  assert (dN: 5/10 * (q i (j+1)%Z k - q i (j-1)%Z k) = dot3 g b).
  { rewrite !Hq, !(affine_centre _ _ _ _ _ _ _ _ H), !plus_IZR, minus_IZR. generalize (IZR i) (IZR j) (IZR k). clear. intros. unfold linearField. vcomp. field. }
  assert (dC: 5/10 * (q i j (k+1)%Z - q i j (k-1)%Z) = dot3 g c).
  { rewrite !Hq, !(affine_centre _ _ _ _ _ _ _ _ H), !plus_IZR, minus_IZR. generalize (IZR i) (IZR j) (IZR k). clear. intros. unfold linearField. vcomp. field. }
  rewrite dE, dN, dC. vext; ring.
Qed.

Theorem C22_linear_exact_4th : forall X o a b c q c0 g i j k, affineGrid X o a b c -> tiny <= det3 a b c ->
  (forall i j k, q i j k = linearField c0 g (cellCentre X i j k)) ->
  dq4FD X q i j k = g.
Proof.
  intros X o a b c q c0 g i j k H D Hq. pose proof tiny_pos.
  pose proof (affine_box X o a b c i j k H) as B.
  pose proof (C20_inverse_jacobian X i j k (X i j k) a b c B D) as (PE & PN & PC).
  transitivity (vadd (vscale (dot3 g a) (gradE X i j k)) (vadd (vscale (dot3 g b) (gradN X i j k)) (vscale (dot3 g c) (gradC X i j k)))); [|apply (grad_exact a b c); auto; lra].
  unfold dq4FD.
  assert (dE: - q (i+2)%Z j k + 8 * q (i+1)%Z j k - 8 * q (i-1)%Z j k + q (i-2)%Z j k = 12 * dot3 g a).
  { rewrite !Hq, !(affine_centre _ _ _ _ _ _ _ _ H), !plus_IZR, !minus_IZR. generalize (IZR i) (IZR j) (IZR k). clear. intros. unfold linearField. vcomp. field. }
  assert (dN: - q i (j+2)%Z k + 8 * q i (j+1)%Z k - 8 * q i (j-1)%Z k + q i (j-2)%Z k = 12 * dot3 g b).
  { rewrite !Hq, !(affine_centre _ _ _ _ _ _ _ _ H), !plus_IZR, !minus_IZR. generalize (IZR i) (IZR j) (IZR k). clear. intros. unfold linearField. vcomp. field. }
  assert (dC: - q i j (k+2)%Z + 8 * q i j (k+1)%Z - 8 * q i j (k-1)%Z + q i j (k-2)%Z = 12 * dot3 g c).
  { rewrite !Hq, !(affine_centre _ _ _ _ _ _ _ _ H), !plus_IZR, !minus_IZR. generalize (IZR i) (IZR j) (IZR k). clear. intros. unfold linearField. vcomp. field. }
  rewrite dE, dN, dC. vext; field.
Qed.

(** constant fields have zero gradient on every grid, and the gradient is linear in the field *)
Theorem C22_constant_any_grid : forall X c0 i j k, dq2FD X (fun _ _ _ => c0) i j k = vzero /\ dq4FD X (fun _ _ _ => c0) i j k = vzero.
Proof. intros. split; unfold dq2FD, dq4FD; vext; field. Qed.

(** Non-vacuity: a skewed affine grid. *)
Definition exGrid : nodes := fun i j k => (IZR i * 2 + IZR j, IZR j * 3 + IZR k, IZR k * 2 - IZR i).
Example C22_ex : affineGrid exGrid (0,0,0) (2,0,-1) (1,3,0) (0,1,2) /\ tiny <= det3 (2,0,-1) (1,3,0) (0,1,2).
Proof.
  split.
  - intros i j k. unfold exGrid. vext; ring.
  - vcomp. apply Rle_trans with 1; [|lra]. unfold tiny. apply Rle_trans with (/ 1); [apply Rinv_le_contravar; lra|lra].
Qed.
Print Assumptions C19_cell_faces_close.
Print Assumptions C20_volume.
Print Assumptions C20_inverse_jacobian.
Print Assumptions C20_volume_additive.
Print Assumptions C21_unit_normal.
Print Assumptions C22_linear_exact_2nd.
Print Assumptions C22_linear_exact_4th.
