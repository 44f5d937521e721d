(** Specification vocabulary for the boundary conditions: the layers of cells in front of and behind a block face, vector algebra of a
    velocity, and what the equation of state may change. *)
From Coq Require Import Reals ZArith Bool.
From Verif Require Import M_Topology M_Halo M_Grid M_Metrics M_FluxKernels.
Open Scope R_scope.

(** faces 1,2 are the low and high i face, 3,4 the j faces, 5,6 the k faces *)
Definition isBface (n : Z) : Prop := (1 <= n <= 6)%Z.
Definition nodesAlong (d : dims) (n : Z) : Z := if (n <=? 2)%Z then ni d else if (n <=? 4)%Z then nj d else nk d.
(** index, along the face's own direction, of the m-th layer of cells counted from the face into the block: m = 1, 2, ... are the first, second
    ... interior layer, m = 0, -1, ... the first, second ... halo layer behind the face *)
Definition layerIndex (d : dims) (ng n m : Z) : Z := if Z.odd n then (ng - 1 + m)%Z else (nodesAlong d n + ng - 1 - m)%Z.
(** the cell of that layer whose other two indices are (a, b) *)
Definition layerCell (d : dims) (ng n m a b : Z) : Z * Z * Z :=
  let s := layerIndex d ng n m in if (n <=? 2)%Z then (s, a, b) else if (n <=? 4)%Z then (a, s, b) else (a, b, s).
(** all the (a, b) of a block with ng halo layers *)
Definition onBface (d : dims) (ng n a b : Z) : Prop :=
  let t := fun x => (x + 2 * ng - 1)%Z in
  if (n <=? 2)%Z then (0 <= a < t (nj d) /\ 0 <= b < t (nk d))%Z
  else if (n <=? 4)%Z then (0 <= a < t (ni d) /\ 0 <= b < t (nk d))%Z
  else (0 <= a < t (ni d) /\ 0 <= b < t (nj d))%Z.
(** a halo cell behind face n *)
Definition behind (d : dims) (ng n i j k : Z) : Prop :=
  exists g a b, (0 <= g < ng)%Z /\ onBface d ng n a b /\ (i, j, k) = layerCell d ng n (- g) a b.
Definition cellOf {A} (f : Z -> Z -> Z -> A) (p : Z * Z * Z) : A := let '(i, j, k) := p in f i j k.
(** the area vector's normal of the block face the (a, b) cells lie on: entry (face plane) of the normals of the face's own direction *)
Definition bfaceNormal (d : dims) (ng n : Z) (nI nJ nK : Z -> Z -> Z -> vec) (a b : Z) : vec :=
  let s := (if Z.odd n then ng else nodesAlong d n + ng - 1)%Z in
  if (n <=? 2)%Z then nI s a b else if (n <=? 4)%Z then nJ a s b else nK a b s.
(** +1 if the stored normals of this face point into the block, -1 if out of it *)
Definition inwards (n : Z) : R := if Z.odd n then 1 else -1.

Definition velocity (c : cell) : vec := (cq c 1%Z, cq c 2%Z, cq c 3%Z).
Definition dotv (a b : vec) : R := vx a * vx b + vy a * vy b + vz a * vz b.
Definition unitv (n : vec) : Prop := dotv n n = 1.
Definition meanv (a b : vec) : vec := ((vx a + vx b) / 2, (vy a + vy b) / 2, (vz a + vz b) / 2).
(** the equation of state, called on primitive variables, leaves p, u, v, w and T alone, and mass fractions that are already in [0,1] *)
Definition keepsPrimitives (ne : Z) (eos : cell -> cell) : Prop :=
  (forall c l, (0 <= l < 5)%Z -> cq (eos c) l = cq c l) /\ (forall c l, (5 <= l < ne)%Z -> 0 <= cq c l <= 1 -> cq (eos c) l = cq c l).
(** momentum and total energy of a cell are those of its density, velocity and internal energy *)
Definition coherentCell (c : cell) : Prop :=
  cQ c 1%Z = c_rho c * cq c 1%Z /\ cQ c 2%Z = c_rho c * cq c 2%Z /\ cQ c 3%Z = c_rho c * cq c 3%Z /\
  c_E c = c_re c + c_rho c * dotv (velocity c) (velocity c) / 2.
(** matrices 3x3 *)
Definition applyM (M : Z -> Z -> R) (v : vec) : vec :=
  (M 0%Z 0%Z * vx v + M 0%Z 1%Z * vy v + M 0%Z 2%Z * vz v, M 1%Z 0%Z * vx v + M 1%Z 1%Z * vy v + M 1%Z 2%Z * vz v, M 2%Z 0%Z * vx v + M 2%Z 1%Z * vy v + M 2%Z 2%Z * vz v).
(** the flux stored on the block face in front of the (a, b) cells *)
Definition bfaceFlux (d : dims) (ng n : Z) (F : M_Flux.fluxes) (a b l : Z) : R :=
  let s := (if Z.odd n then ng else nodesAlong d n + ng - 1)%Z in
  if (n <=? 2)%Z then M_Flux.iF F s a b l else if (n <=? 4)%Z then M_Flux.jF F a s b l else M_Flux.kF F a b s l.
Definition bfaceArea (d : dims) (ng n : Z) (X : nodes) (a b : Z) : vec :=
  let s := (if Z.odd n then ng else nodesAlong d n + ng - 1)%Z in
  if (n <=? 2)%Z then iArea X s a b else if (n <=? 4)%Z then jArea X a s b else kArea X a b s.
(** density, internal energy, sound speed and partial densities given by the equation of state depend on p, T and the mass fractions only *)
Definition sameThermo (ne : Z) (c c' : cell) : Prop :=
  c_rho c = c_rho c' /\ c_re c = c_re c' /\ c_c c = c_c c' /\ (forall l, (5 <= l < ne)%Z -> cQ c l = cQ c' l /\ cq c l = cq c' l).
Definition thermoOnly (ne : Z) (eos : cell -> cell) : Prop :=
  forall c c', (forall l, (l = 0 \/ 4 <= l < ne)%Z -> cq c l = cq c' l) -> sameThermo ne (eos c) (eos c').
(** an interior cell whose conserved and primitive values already satisfy the equation of state *)
Definition atEos (ne : Z) (eos : cell -> cell) (c : cell) : Prop := sameThermo ne (eos c) c /\ coherentCell c.

(** the signal a list of N cubic pieces of length dt describes, repeated for ever: piece m mod N at the time elapsed since m dt, where m dt <= t < (m+1) dt *)
Definition isPeriodicSpline (N : Z) (dt : R) (coef : Z -> Z -> R) (u : R -> R) : Prop :=
  forall m s t, 0 <= t -> t = IZR m * dt + s -> 0 <= s < dt ->
    u t = coef 0%Z (m mod N)%Z * s ^ 3 + coef 1%Z (m mod N)%Z * s ^ 2 + coef 2%Z (m mod N)%Z * s + coef 3%Z (m mod N)%Z.
