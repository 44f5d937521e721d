(** Specification for C150: order of accuracy of a flux on a uniform grid in one direction. *)
From Coq Require Import Reals ZArith.
From Verif Require Import M_Grid M_FluxKernels.
Open Scope R_scope.

(** flow along x whose properties are functions of x; [y] the mass fraction of every species *)
Record flow := mkFlow { w_rho : R -> R; w_u : R -> R; w_p : R -> R; w_re : R -> R; w_y : R -> R }.
Definition cellOf (w : flow) (x : R) : cell :=
  mkCell (fun l => if (l =? 0)%Z then w_rho w x else if (l =? 1)%Z then w_rho w x * w_u w x else if (l =? 4)%Z then w_re w x + w_rho w x / 2 * (w_u w x * w_u w x)
                   else if (5 <=? l)%Z then w_rho w x * w_y w x else 0)
         (fun l => if (l =? 0)%Z then w_p w x else if (l =? 1)%Z then w_u w x else if (5 <=? l)%Z then w_y w x else 0)
         (fun l => if (l =? 4)%Z then w_re w x else 0).
(** a face of unit area across x *)
Definition acrossX : fgeo := mkGeo 1 (1, 0, 0) (1, 0, 0).
(** what leaves the cell at x per unit of its length h: its cells are at x + m h *)
Definition divergence (f : flux1) (w : flow) (h x : R) (l : Z) : R :=
  (f acrossX (fun m => cellOf w (x + h * (IZR m + 1))) l - f acrossX (fun m => cellOf w (x + h * IZR m)) l) / h.
Definition quartic4 (a0 a1 a2 a3 a4 x : R) : R := a0 + a1 * x + a2 * x ^ 2 + a3 * x ^ 3 + a4 * x ^ 4.
Definition slope4 (a1 a2 a3 a4 x : R) : R := a1 + 2 * a2 * x + 3 * a3 * x ^ 2 + 4 * a4 * x ^ 3.
Definition constant (c : R) : R -> R := fun _ => c.
(** error at most C h^n for all small spacings *)
Definition orderAt (n : nat) (approx : R -> R) (exact : R) : Prop := exists C h0, 0 < h0 /\ forall h, 0 < h < h0 -> Rabs (approx h - exact) <= C * h ^ n.
