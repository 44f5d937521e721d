(** Component-wise rewriting for vectors. *)
From Coq Require Import Reals ZArith.
From Verif Require Import M_Topology M_Halo M_Grid M_Metrics S_Metrics L_Grid3.
Open Scope R_scope.
Lemma vx_mk a b c : vx (a,b,c) = a. Proof. reflexivity. Qed.
Lemma vy_mk a b c : vy (a,b,c) = b. Proof. reflexivity. Qed.
Lemma vz_mk a b c : vz (a,b,c) = c. Proof. reflexivity. Qed.
Lemma vx_add a b : vx (vadd a b) = vx a + vx b. Proof. reflexivity. Qed.
Lemma vy_add a b : vy (vadd a b) = vy a + vy b. Proof. reflexivity. Qed.
Lemma vz_add a b : vz (vadd a b) = vz a + vz b. Proof. reflexivity. Qed.
Lemma vx_sub a b : vx (vsub a b) = vx a - vx b. Proof. reflexivity. Qed.
Lemma vy_sub a b : vy (vsub a b) = vy a - vy b. Proof. reflexivity. Qed.
Lemma vz_sub a b : vz (vsub a b) = vz a - vz b. Proof. reflexivity. Qed.
Lemma vx_scale s a : vx (vscale s a) = s * vx a. Proof. reflexivity. Qed.
Lemma vy_scale s a : vy (vscale s a) = s * vy a. Proof. reflexivity. Qed.
Lemma vz_scale s a : vz (vscale s a) = s * vz a. Proof. reflexivity. Qed.
Lemma vx_cross a b : vx (cross a b) = vy a * vz b - vz a * vy b. Proof. reflexivity. Qed.
Lemma vy_cross a b : vy (cross a b) = vz a * vx b - vx a * vz b. Proof. reflexivity. Qed.
Lemma vz_cross a b : vz (cross a b) = vx a * vy b - vy a * vx b. Proof. reflexivity. Qed.
Lemma vx_zero : vx vzero = 0. Proof. reflexivity. Qed.
Lemma vy_zero : vy vzero = 0. Proof. reflexivity. Qed.
Lemma vz_zero : vz vzero = 0. Proof. reflexivity. Qed.
Global Hint Rewrite vx_mk vy_mk vz_mk vx_add vy_add vz_add vx_sub vy_sub vz_sub vx_scale vy_scale vz_scale
  vx_cross vy_cross vz_cross vx_zero vy_zero vz_zero : vec.
Ltac vcomp := unfold det3, dot3, dot in *; autorewrite with vec in *.
Ltac vext := apply vec_eq; vcomp.
