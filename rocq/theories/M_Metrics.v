(** Model of src/peregrinepy/grid/metrics.py and src/compute/utils/dq2FD.cpp, dq4FD.cpp.
    Exact real arithmetic.  A grid is the function from node indices to points (arrays x, y, z of the
    block together); numpy's shifted slices x[0:-1], x[1::] become indices i and i+1. *)
From Coq Require Import Reals ZArith List Bool.
From Verif Require Import M_Topology M_Halo M_Grid.
Import ListNotations.
Open Scope R_scope.

Definition nodes := Z -> Z -> Z -> vec.
Definition array4 := Z -> Z -> Z -> Z -> R.
Definition cross (a b : vec) : vec :=
  (vy a * vz b - vz a * vy b, vz a * vx b - vx a * vz b, vx a * vy b - vy a * vx b).

(** metrics.py:39-70 cell centres *)
Definition cellCentre (X : nodes) (i j k : Z) : vec :=
  vscale (125/1000) (vadd (vadd (vadd (X i j k) (X i j (k+1)%Z)) (vadd (X i (j+1)%Z k) (X i (j+1)%Z (k+1)%Z)))
                      (vadd (vadd (X (i+1)%Z j k) (X (i+1)%Z j (k+1)%Z)) (vadd (X (i+1)%Z (j+1)%Z k) (X (i+1)%Z (j+1)%Z (k+1)%Z)))).
(** metrics.py:82-90, 142-150, 202-210 face centres *)
Definition iFaceCentre (X : nodes) (i j k : Z) : vec :=
  vscale (25/100) (vadd (vadd (X i j k) (X i j (k+1)%Z)) (vadd (X i (j+1)%Z k) (X i (j+1)%Z (k+1)%Z))).
Definition jFaceCentre (X : nodes) (i j k : Z) : vec :=
  vscale (25/100) (vadd (vadd (X i j k) (X i j (k+1)%Z)) (vadd (X (i+1)%Z j k) (X (i+1)%Z j (k+1)%Z))).
Definition kFaceCentre (X : nodes) (i j k : Z) : vec :=
  vscale (25/100) (vadd (vadd (X i j k) (X i (j+1)%Z k)) (vadd (X (i+1)%Z j k) (X (i+1)%Z (j+1)%Z k))).

(** metrics.py:92-112: isx, isy, isz *)
Definition iArea (X : nodes) (i j k : Z) : vec :=
  let X1 := X i j k in let X2 := X i (j+1)%Z k in let X5 := X i j (k+1)%Z in let X6 := X i (j+1)%Z (k+1)%Z in
  vscale (1/2) (cross (vsub X2 X5) (vsub X6 X1)).
(** metrics.py:152-172 *)
Definition jArea (X : nodes) (i j k : Z) : vec :=
  let X1 := X i j k in let X4 := X (i+1)%Z j k in let X5 := X i j (k+1)%Z in let X8 := X (i+1)%Z j (k+1)%Z in
  vscale (1/2) (cross (vsub X5 X4) (vsub X8 X1)).
(** metrics.py:212-232 *)
Definition kArea (X : nodes) (i j k : Z) : vec :=
  let X1 := X i j k in let X2 := X i (j+1)%Z k in let X3 := X (i+1)%Z (j+1)%Z k in let X4 := X (i+1)%Z j k in
  vscale (1/2) (cross (vsub X4 X2) (vsub X3 X1)).

Definition tiny : R := / 10000000000000000.                                    (* 1e-16 *)
Definition clip (v : R) : R := Rmax v tiny.                                    (* np.clip(v, 1e-16, None) *)
(** metrics.py:114-118, 174-178, 234-238: iS, jS, kS *)
Definition faceSize (s : vec) : R := clip (sqrt (vx s * vx s + vy s * vy s + vz s * vz s)).
(** metrics.py:120-122 etc.: inx, iny, inz *)
Definition faceNormal (s : vec) : vec := (vx s / faceSize s, vy s / faceSize s, vz s / faceSize s).

(** metrics.py:263-282: the value before clipping *)
Definition rawVolume (X : nodes) (i j k : Z) : R :=
  let dg := vsub (X (i+1)%Z (j+1)%Z (k+1)%Z) (X i j k) in
  let S := vadd (vadd (iArea X (i+1)%Z j k) (jArea X i (j+1)%Z k)) (kArea X i j (k+1)%Z) in
  (vx dg * vx S + vy dg * vy S + vz dg * vz S) / 3.
(** metrics.py:284: J *)
Definition volume (X : nodes) (i j k : Z) : R := clip (rawVolume X i j k).

(** metrics.py:296-334: derivatives of the position with respect to the cell coordinates *)
Definition ddE (X : nodes) (i j k : Z) : vec :=
  let x1 := X i j k in let x2 := X i (j+1)%Z k in let x3 := X (i+1)%Z (j+1)%Z k in let x4 := X (i+1)%Z j k in
  let x5 := X i j (k+1)%Z in let x6 := X i (j+1)%Z (k+1)%Z in let x7 := X (i+1)%Z (j+1)%Z (k+1)%Z in let x8 := X (i+1)%Z j (k+1)%Z in
  vscale (25/100) (vadd (vadd (vadd (vsub x4 x1) (vsub x8 x5)) (vsub x3 x2)) (vsub x7 x6)).
Definition ddN (X : nodes) (i j k : Z) : vec :=
  let x1 := X i j k in let x2 := X i (j+1)%Z k in let x3 := X (i+1)%Z (j+1)%Z k in let x4 := X (i+1)%Z j k in
  let x5 := X i j (k+1)%Z in let x6 := X i (j+1)%Z (k+1)%Z in let x7 := X (i+1)%Z (j+1)%Z (k+1)%Z in let x8 := X (i+1)%Z j (k+1)%Z in
  vscale (25/100) (vadd (vadd (vadd (vsub x2 x1) (vsub x3 x4)) (vsub x7 x8)) (vsub x6 x5)).
Definition ddC (X : nodes) (i j k : Z) : vec :=
  let x1 := X i j k in let x2 := X i (j+1)%Z k in let x3 := X (i+1)%Z (j+1)%Z k in let x4 := X (i+1)%Z j k in
  let x5 := X i j (k+1)%Z in let x6 := X i (j+1)%Z (k+1)%Z in let x7 := X (i+1)%Z (j+1)%Z (k+1)%Z in let x8 := X (i+1)%Z j (k+1)%Z in
  vscale (25/100) (vadd (vadd (vadd (vsub x5 x1) (vsub x8 x4)) (vsub x6 x2)) (vsub x7 x3)).

(** metrics.py:336-346 *)
Definition gradE (X : nodes) (i j k : Z) : vec :=
  let N := ddN X i j k in let C := ddC X i j k in let J := volume X i j k in
  ((vy N * vz C - vy C * vz N) / J, (vx N * vz C - vx C * vz N) / - J, (vx N * vy C - vx C * vy N) / J).
Definition gradN (X : nodes) (i j k : Z) : vec :=
  let E := ddE X i j k in let C := ddC X i j k in let J := volume X i j k in
  ((vy E * vz C - vy C * vz E) / - J, (vx E * vz C - vx C * vz E) / J, (vx E * vy C - vx C * vy E) / - J).
Definition gradC (X : nodes) (i j k : Z) : vec :=
  let E := ddE X i j k in let N := ddN X i j k in let J := volume X i j k in
  ((vy E * vz N - vy N * vz E) / J, (vx E * vz N - vx N * vz E) / - J, (vx E * vy N - vx N * vy E) / J).

(** dq2FD.cpp:17-28, one component of q at one interior cell: (dqdx, dqdy, dqdz) *)
Definition dq2FD (X : nodes) (q : Z -> Z -> Z -> R) (i j k : Z) : vec :=
  let dqdE := 5/10 * (q (i+1)%Z j k - q (i-1)%Z j k) in
  let dqdN := 5/10 * (q i (j+1)%Z k - q i (j-1)%Z k) in
  let dqdC := 5/10 * (q i j (k+1)%Z - q i j (k-1)%Z) in
  let E := gradE X i j k in let N := gradN X i j k in let C := gradC X i j k in
  (dqdE * vx E + dqdN * vx N + dqdC * vx C,
   dqdE * vy E + dqdN * vy N + dqdC * vy C,
   dqdE * vz E + dqdN * vz N + dqdC * vz C).
(** dq4FD.cpp:18-36 *)
Definition dq4FD (X : nodes) (q : Z -> Z -> Z -> R) (i j k : Z) : vec :=
  let t1 := - q (i+2)%Z j k + 8 * q (i+1)%Z j k - 8 * q (i-1)%Z j k + q (i-2)%Z j k in
  let t2 := - q i (j+2)%Z k + 8 * q i (j+1)%Z k - 8 * q i (j-1)%Z k + q i (j-2)%Z k in
  let t3 := - q i j (k+2)%Z + 8 * q i j (k+1)%Z - 8 * q i j (k-1)%Z + q i j (k-2)%Z in
  let E := gradE X i j k in let N := gradN X i j k in let C := gradC X i j k in
  ((t1 * vx E + t2 * vx N + t3 * vx C) / 12,
   (t1 * vy E + t2 * vy N + t3 * vy C) / 12,
   (t1 * vz E + t2 * vz N + t3 * vz C) / 12).
