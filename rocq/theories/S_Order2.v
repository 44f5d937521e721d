(** Specification for C154: second-order accuracy of the central schemes along any line of evenly spaced cells. *)
From Coq Require Import Reals ZArith.
From Verif Require Import M_Grid M_FluxKernels S_Order4.
Open Scope R_scope.

(** n times differentiable with a continuous n-th derivative *)
Fixpoint smooth (n : nat) (f : R -> R) : Prop :=
  match n with O => continuity f | S m => exists f', (forall x, derivable_pt_lim f x (f' x)) /\ smooth m f' end.

(** a gas whose properties vary along a line; [fc] the speed of sound, [fy l] the mass fraction stored in component l *)
Record gas := mkGas { frho : R -> R; fu : R -> R; fv : R -> R; fw : R -> R; fp : R -> R; fre : R -> R; fc : R -> R; fy : Z -> R -> R }.
Definition smoothGas (w : gas) : Prop :=
  smooth 3 (frho w) /\ smooth 3 (fu w) /\ smooth 3 (fv w) /\ smooth 3 (fw w) /\ smooth 3 (fp w) /\ smooth 3 (fre w) /\ smooth 3 (fc w) /\ (forall l, smooth 3 (fy w l)).
(** a gas with mass and with positive internal energy and speed of sound everywhere *)
Definition realGas (w : gas) : Prop := (forall x, 0 < frho w x) /\ (forall x, 0 < fre w x) /\ (forall x, 0 < fc w x).
Definition energy (w : gas) (x : R) : R := fre w x + frho w x / 2 * (fu w x * fu w x + fv w x * fv w x + fw w x * fw w x).
(** the cell at x, with its conserved variables, its primitive variables its speed of sound and its internal energy *)
Definition gasCell (w : gas) (x : R) : cell :=
  mkCell (fun l => if (l =? 0)%Z then frho w x else if (l =? 1)%Z then frho w x * fu w x else if (l =? 2)%Z then frho w x * fv w x
                   else if (l =? 3)%Z then frho w x * fw w x else if (l =? 4)%Z then energy w x else frho w x * fy w l x)
         (fun l => if (l =? 0)%Z then fp w x else if (l =? 1)%Z then fu w x else if (l =? 2)%Z then fv w x else if (l =? 3)%Z then fw w x else fy w l x)
         (fun l => if (l =? 3)%Z then fc w x else if (l =? 4)%Z then fre w x else 0).
(** what leaves the cell at x, per unit spacing, through two faces with the same area vector: cells at x + m h *)
Definition leaving (f : flux1) (g : fgeo) (w : gas) (h x : R) (l : Z) : R :=
  (f g (fun m => gasCell w (x + h * (IZR m + 1))) l - f g (fun m => gasCell w (x + h * IZR m)) l) / h.
(** the Euler fluxes through the area vector of the face *)
Definition eulerFlux (g : fgeo) (w : gas) (l : Z) (x : R) : R :=
  let U := fu w x * vx (gs g) + fv w x * vy (gs g) + fw w x * vz (gs g) in
  if (l =? 0)%Z then frho w x * U else if (l =? 1)%Z then frho w x * fu w x * U + fp w x * vx (gs g)
  else if (l =? 2)%Z then frho w x * fv w x * U + fp w x * vy (gs g) else if (l =? 3)%Z then frho w x * fw w x * U + fp w x * vz (gs g)
  else if (l =? 4)%Z then (energy w x + fp w x) * U else frho w x * fy w l x * U.
