(** Specification for C147: collision parameters of a pair of species after Monchick and Mason, least-squares fits. *)
From Coq Require Import Reals ZArith List Bool.
From Verif Require Import M_KtFit.
Import ListNotations.
Open Scope R_scope.

(** species data as they must be *)
Definition plausible (s : ktSp) : Prop := 0 < sMW s /\ 0 < sWell s /\ 0 < sDiam s /\ 0 <= sDipole s /\ 0 <= sPolarize s.
Definition goodConst (k : ktConst) : Prop := 0 < c_kb k /\ 0 < c_eps0 k /\ 0 < c_avo k /\ 0 < c_Ru k.
(** the dipole of p induces one in n: reduced polarisability of n times the square of the reduced dipole moment of p *)
Definition induction (k : ktConst) (p n : ktSp) : R :=
  1 + 1 / 4 * (sPolarize n / sDiam n ^ 3) * (sDipole p ^ 2 / (4 * PI * c_eps0 k * sDiam p ^ 3 * sWell p)) * sqrt (sWell p / sWell n).
Definition polarFactor (k : ktConst) (a b : ktSp) : R :=
  if isPolar a then (if isPolar b then 1 else induction k a b) else if isPolar b then induction k b a else 1.
(** well depth and diameter of the pair *)
Definition pairWell (k : ktConst) (a b : ktSp) : R := sqrt (sWell a * sWell b) * polarFactor k a b ^ 2.
Definition pairDiam (k : ktConst) (a b : ktSp) : R := (sDiam a + sDiam b) / 2 * Rpower (polarFactor k a b) (- (1 / 6)).
Definition pairMass (k : ktConst) (a b : ktSp) : R := sMW a * sMW b / (sMW a + sMW b) / c_avo k.
(** a quartic whose coefficients come highest power first *)
Definition quarticDown (c : list R) (x : R) : R := fold_left (fun acc a => acc * x + a) c 0.
(** sum of the squares of the weighted residuals *)
Definition cost (xs ys ws c : list R) : R :=
  fold_right (fun xyw s => (snd xyw * (snd (fst xyw) - quarticDown c (fst (fst xyw)))) ^ 2 + s) 0 (combine (combine xs ys) ws).
(** what numpy promises of polyfit with deg=4: five coefficients that minimise the cost *)
Definition leastSquares (fit : list R -> list R -> list R -> list R) : Prop :=
  forall xs ys ws, length (fit xs ys ws) = 5%nat /\ forall c, length c = 5%nat -> cost xs ys ws (fit xs ys ws) <= cost xs ys ws c.
(** two species, in this order *)
Definition two (a b : ktSp) : Z -> ktSp := fun n => if (n =? 0)%Z then a else b.
