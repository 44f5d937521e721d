(** Model of src/peregrinepy/thermoTransport/kineticTheoryPoly.py: how the tables that the kinetic-theory kernels read are made from the species data.
    Exact reals.  Parameters: the two bivariate splines through the tables of Monchick and Mason (kineticTheoryPoly.py:46-51, scipy) as functions of T* and delta*, and numpy's polyfit
    (240-273).  Definitions only. *)
From Coq Require Import Reals ZArith List Bool.
From Verif Require Import M_Topology M_Halo M_Grid M_Thermo M_Transport.
Import ListNotations.
Open Scope R_scope.

(** geometry strings (kineticTheoryPoly.py:75-82).  Simplification: any other string, which leaves rotDOF too short so that line 190 raises IndexError, is not modelled *)
Inductive shape := Atom | Linear | Nonlinear.
Definition rotDOF (g : shape) : R := match g with Atom => 0 | Linear => 1 | Nonlinear => 3 / 2 end.
(** what completeSpecies delivers for one species (54-75): MW, well, diam, dipole, polarize, zrot, geometry, and cp0 or NASA7 *)
Record ktSp := mkSp { sMW : R; sWell : R; sDiam : R; sDipole : R; sPolarize : R; sZrot : R; sShape : shape; sCp0 : R; sNasa : Z -> R }.
(** constants of the species library (8-11) *)
Record ktConst := mkKc { c_kb : R; c_eps0 : R; c_avo : R; c_Ru : R }.
Inductive gasModel := Cpg | Tpg.
(** cp_R (14-28): dimensionless heat capacity; the list starts with the break temperature, then the seven high, then the seven low coefficients *)
Definition cpR (k : ktConst) (eos : gasModel) (s : ktSp) (T : R) : R :=
  match eos with
  | Cpg => sCp0 s * T / (c_Ru k * sMW s)
  | Tpg => let at_ o := fold_left (fun a i => a + sNasa s (i + 1 + o)%Z * T ^ Z.to_nat i) (zrange 0 5) 0 in
           if Rle_dec T (sNasa s 0%Z) then at_ 7%Z else at_ 0%Z
  end.
(** mass (55) *)
Definition mMass (k : ktConst) (s : ktSp) : R := sMW s / c_avo k.
Definition isPolar (s : ktSp) : bool := if Rlt_dec 0 (sDipole s) then true else false.

(** the five matrices of collision parameters (87-92), zero at first *)
Record coll := mkColl { rMass : Z -> Z -> R; rWell : Z -> Z -> R; rDiam : Z -> Z -> R; rDip : Z -> Z -> R; rDelta : Z -> Z -> R }.
Definition coll0 : coll := mkColl (fun _ _ => 0) (fun _ _ => 0) (fun _ _ => 0) (fun _ _ => 0) (fun _ _ => 0).
Definition set2 (f : Z -> Z -> R) (i j : Z) (v : R) : Z -> Z -> R := fun a b => if ((a =? i) && (b =? j))%Z%bool then v else f a b.
Definition setSym (f : Z -> Z -> R) (i j : Z) (v : R) : Z -> Z -> R := set2 (set2 f i j v) j i v.
(** one pass of the double loop (96-138).  The dipole moment of the polar species is read back from the matrix (124) *)
Definition collStep (k : ktConst) (sp : Z -> ktSp) (c : coll) (i j : Z) : coll :=
  let a := sp i in let b := sp j in
  let mass := mMass k a * mMass k b / (mMass k a + mMass k b) in
  let diam := 1 / 2 * (sDiam a + sDiam b) in
  let well := sqrt (sWell a * sWell b) in
  let dip := sqrt (sDipole a * sDipole b) in
  let delta := 1 / 2 * dip ^ 2 / (4 * PI * c_eps0 k * well * diam ^ 3) in
  let dipoles := set2 (rDip c) i j dip in
  let '(fWell, fDiam) :=
    if Bool.eqb (isPolar a) (isPolar b) then (1, 1)
    else
      let '(kp, knp) := if isPolar a then (i, j) else (j, i) in
      let alphastar := sPolarize (sp knp) / sDiam (sp knp) ^ 3 in
      let dipolestar := dipoles kp kp / sqrt (4 * PI * c_eps0 k * sDiam (sp kp) ^ 3 * sWell (sp kp)) in
      let xi := 1 + 1 / 4 * alphastar * dipolestar ^ 2 * sqrt (sWell (sp kp) / sWell (sp knp)) in
      (xi ^ 2, Rpower xi (- (1 / 6))) in
  mkColl (setSym (rMass c) i j mass) (setSym (rWell c) i j (well * fWell)) (setSym (rDiam c) i j (diam * fDiam)) (setSym (rDip c) i j dip) (setSym (rDelta c) i j delta).
(** for i in range(ns): for j in range(i, ns) (94-95) *)
Definition collisions (k : ktConst) (ns : Z) (sp : Z -> ktSp) : coll := fold_left (fun c ij => collStep k sp c (fst ij) (snd ij)) (dijRows ns) coll0.

(** Ts = np.linspace(200, 5000, 50) (38-43) *)
Definition sampleT (i : Z) : R := linspace 200 5000 50 i.
Definition samples : list R := map sampleT (zrange 0 50).
Section Fits.
Variable k : ktConst.
Variable ns : Z.
Variable sp : Z -> ktSp.
Variable eos : gasModel.
(** intrp_o22(Tstar, delta), intrp_Astar(Tstar, delta) *)
Variables o22 astar : R -> R -> R.
Let c := collisions k ns sp.
(** viscosities (144-151) *)
Definition visc (T : R) (n : Z) : R :=
  let s := sp n in 5 / 16 * sqrt (PI * mMass k s * c_kb k * T) / (PI * sDiam s ^ 2 * o22 (T * c_kb k / sWell s) (rDelta c n n)).
(** fz at T* (164-168, 191-195) *)
Definition fz (ts : R) : R := 1 + Rpower PI (3 / 2) / sqrt ts * (1 / 2 + 1 / ts) + (1 / 4 * PI ^ 2 + 2) / ts.
(** thermal conductivities (161-208) *)
Definition cond (T : R) (n : Z) : R :=
  let s := sp n in
  let ts := T * c_kb k / sWell s in
  let o11 := o22 ts (rDelta c n n) / astar ts (rDelta c n n) in
  let diffcoeff := 3 / 16 * sqrt (2 * PI / rMass c n n) * Rpower (c_kb k * T) (3 / 2) / (PI * sDiam s ^ 2 * o11) in
  let fint := sMW s / (c_Ru k * T) * diffcoeff / visc T n in
  let A := 5 / 2 - fint in
  let B := sZrot s * fz (c_kb k * 298 / sWell s) / fz ts + 2 / PI * (5 / 3 * rotDOF (sShape s) + fint) in
  let c1 := 2 / PI * A / B in
  let cvint := cpR k eos s T - 5 / 2 - rotDOF (sShape s) in
  let frot := fint * (1 + c1) in
  let ftrans := 5 / 2 * (1 - c1 * rotDOF (sShape s) / (3 / 2)) in
  visc T n / sMW s * c_Ru k * (ftrans * (3 / 2) + frot * rotDOF (sShape s) + fint * cvint).
(** binary diffusion at unit pressure, for k <= j (214-235) *)
Definition diff (T : R) (n j : Z) : R :=
  let ts := T * c_kb k / rWell c j n in
  let o11 := o22 ts (rDelta c j n) / astar ts (rDelta c j n) in
  3 / 16 * sqrt (2 * PI / rMass c n j) * Rpower (c_kb k * T) (3 / 2) / (PI * rDiam c j n ^ 2 * o11).
(** np.polyfit(x, y, deg=4, w=w): coefficients, highest power first *)
Variable polyfit : list R -> list R -> list R -> list R.
(** the fits (238-275), lowest power first after np.flip *)
Definition fitOf (y : R -> R) : Z -> R := fun ply =>
  nth (Z.to_nat (4 - ply)) (polyfit (map ln samples) (map y samples) (map (fun T => 1 / y T ^ 2) samples)) 0.
Definition muFit (n : Z) : Z -> R := fitOf (fun T => sqrt (visc T n / sqrt T)).
Definition kappaFit (n : Z) : Z -> R := fitOf (fun T => cond T n / sqrt T).
Definition dijFit (n j : Z) : Z -> R := fitOf (fun T => diff T n j / Rpower T (3 / 2)).
(** muPoly, kappaPoly, DijPoly (275) as the kernels read them *)
Definition ktTables : ktab :=
  mkKt ns (fun n => sMW (sp n)) muFit kappaFit
       (fun slot => match nth_error (dijRows ns) (Z.to_nat slot) with Some nj => dijFit (fst nj) (snd nj) | None => fun _ => 0 end).
End Fits.
