(** Specification vocabulary for the transport properties. *)
From Coq Require Import Reals ZArith List Bool.
From Verif Require Import M_Topology M_Halo M_Grid S_Sum M_Thermo S_Thermo M_Transport.
Import ListNotations.
Open Scope R_scope.

(** species data positive, at least one species *)
Definition positiveOn (ns : Z) (f : Z -> R) : Prop := forall n, (0 <= n < ns)%Z -> 0 < f n.
(** mole fractions of a mixture with the given mass fractions of the first ns-1 species *)
Definition moleFraction (ns : Z) (mw y : Z -> R) (n : Z) : R :=
  withLast ns y n / mw n / sumZ 0 ns (fun m => withLast ns y m / mw m).
(** mass fractions of a gas consisting of species s only *)
Definition pureGas (ns s : Z) (y : Z -> R) : Prop := forall n, (0 <= n < ns)%Z -> withLast ns y n = if (n =? s)%Z then 1 else 0.
(** species values at a temperature: square of a quartic in ln T times T^(1/4); quartics times T^(1/2), T^(3/2) *)
Definition quartic (c : Z -> R) (x : R) : R := c 0%Z + c 1%Z * x + c 2%Z * x ^ 2 + c 3%Z * x ^ 3 + c 4%Z * x ^ 4.
Definition speciesMu (t : ktab) (T : R) (n : Z) : R := (quartic (kMuPoly t n) (ln T) * sqrt (sqrt T)) ^ 2.
Definition speciesKappa (t : ktab) (T : R) (n : Z) : R := quartic (kKappaPoly t n) (ln T) * sqrt T.
(** binary coefficient of a pair at temperature T and unit pressure; [slot] is the row of the table holding the pair *)
Definition binaryD (t : ktab) (slot : Z) (T : R) : R := quartic (kDijPoly t slot) (ln T) * (T * sqrt T).
(** row [slot] of the table of an ns-species mixture holds the coefficients of the pair (n, n2), n <= n2 *)
Definition holdsPair (ns slot n n2 : Z) : Prop := (0 <= slot)%Z /\ nth_error (dijRows ns) (Z.to_nat slot) = Some (n, n2).
(** a cell as the kernel sees it *)
Definition cellY (c : ktInput) : Z -> R := snd (fst c).
Definition cellT (c : ktInput) : R := snd (fst (fst c)).
Definition cellP (c : ktInput) : R := fst (fst (fst c)).
(** no species has mole fraction one *)
Definition mixed (t : ktab) (c : ktInput) : Prop := forall n, (0 <= n < kN t)%Z -> moleFraction (kN t) (kMW t) (cellY c) n <> 1.
(** two cells in the same state *)
Definition sameState (t : ktab) (c c' : ktInput) : Prop :=
  cellP c = cellP c' /\ cellT c = cellT c' /\ forall n, (0 <= n < kN t - 1)%Z -> cellY c n = cellY c' n.
