(** Specification for C149: limited reconstruction. *)
From Coq Require Import Reals ZArith.
From Verif Require Import M_FluxKernels.
Open Scope R_scope.

Definition between (a b x : R) : Prop := Rmin a b <= x <= Rmax a b.
(** internal energy per mass of a cell, of a face state *)
Definition energyOf (c : cell) : R := c_re c / c_rho c.
Definition faceEnergy (s : fstate) : R := f_E s / f_rho s - (f_u s ^ 2 + f_v s ^ 2 + f_w s ^ 2) / 2.
(** calorically perfect gas *)
Definition perfect (gam : R) (c : cell) : Prop := c_p c = (gam - 1) * c_re c /\ c_c c = sqrt (gam * (gam - 1) * energyOf c).
(** positive density and internal energy *)
Definition realCell (c : cell) : Prop := 0 < c_rho c /\ 0 < c_re c.
(** varies linearly over the four cells -2, -1, 0, 1; the face is at -1/2 *)
Definition linearOver (h : Z -> R) (a d : R) : Prop := forall m, (-2 <= m <= 1)%Z -> h m = a + d * IZR m.
(** perfect gas (gamma = 7/5) at rest, with mass fraction y of the first species *)
Definition still (rho e y : R) : cell :=
  mkCell (fun l => if (l =? 0)%Z then rho else if (l =? 4)%Z then rho * e else if (5 <=? l)%Z then rho * y else 0)
         (fun l => if (l =? 0)%Z then 2/5 * (rho * e) else if (5 <=? l)%Z then y else 0)
         (fun l => if (l =? 3)%Z then sqrt (7/5 * (2/5) * e) else rho * e).
(** four cells from their densities, energies and mass fractions *)
Definition four (a b c d : cell) : Z -> cell := fun m => if (m =? -2)%Z then a else if (m =? -1)%Z then b else if (m =? 0)%Z then c else d.
