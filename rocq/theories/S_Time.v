(** Specification of the time integrators: explicit Runge-Kutta methods in Butcher form. *)
From Coq Require Import Reals ZArith List Bool String.
From Verif Require Import M_Time.
Import ListNotations.
Open Scope R_scope.

(** rows of the strictly lower triangular matrix and the weights *)
Record tableau := mkTab { tabA : list (list R); tabB : list R }.
Definition total (l : list R) : R := fold_right Rplus 0 l.
(** c1 k1 + c2 k2 + ... *)
Fixpoint comb {X} (cs : list R) (ks : list (X -> R)) (x : X) : R :=
  match cs, ks with c :: cs', k :: ks' => c * k x + comb cs' ks' x | _, _ => 0 end.
(** the slopes: k_i = f (t + c_i dt) (y + dt sum_j a_ij k_j), with nodes c_i = sum_j a_ij *)
Fixpoint slopes {X} (f : R -> (X -> R) -> X -> R) (t dt : R) (y : X -> R) (rows : list (list R)) (ks : list (X -> R)) : list (X -> R) :=
  match rows with
  | [] => ks
  | row :: rest => slopes f t dt y rest (ks ++ [f (t + dt * total row) (fun x => y x + dt * comb row ks x)])
  end.
Definition rungeKutta {X} (tb : tableau) (f : R -> (X -> R) -> X -> R) (t dt : R) (y : X -> R) : X -> R :=
  fun x => y x + dt * comb (tabB tb) (slopes f t dt y (tabA tb) []) x.
(** N steps of sizes dts *)
Fixpoint rungeKuttaRun {X} (tb : tableau) (f : R -> (X -> R) -> X -> R) (t : R) (dts : list R) (y : X -> R) : X -> R :=
  match dts with [] => y | dt :: l => rungeKuttaRun tb f (t + dt) l (rungeKutta tb f t dt y) end.

(** Forward Euler; Heun; Shu-Osher SSP(3,3); SSP(4,3); the classical fourth-order method; MacCormack is Heun's method. *)
Definition documented (name : string) : option tableau :=
  if String.eqb name "rk1" then Some (mkTab [[]] [1])
  else if String.eqb name "rk2" then Some (mkTab [[]; [1]] [1/2; 1/2])
  else if String.eqb name "maccormack" then Some (mkTab [[]; [1]] [1/2; 1/2])
  else if String.eqb name "rk3" then Some (mkTab [[]; [1]; [1/4; 1/4]] [1/6; 1/6; 2/3])
  else if String.eqb name "rk34" then Some (mkTab [[]; [1/2]; [1/2; 1/2]; [1/6; 1/6; 1/6]] [1/6; 1/6; 1/6; 1/2])
  else if String.eqb name "rk4" then Some (mkTab [[]; [1/2]; [0; 1/2]; [0; 0; 1]] [1/6; 1/3; 1/3; 1/6])
  else None.
(** advertised order *)
Definition orderOf (name : string) : nat :=
  if String.eqb name "rk1" then 1 else if String.eqb name "rk2" then 2 else if String.eqb name "maccormack" then 2
  else if String.eqb name "rk3" then 3 else if String.eqb name "rk34" then 3 else 4.

(** * what the physics must satisfy *)
Section Physics.
Context {X A : Type}.
Variable inner : X -> bool.
Variable E : env X A.
Definition sameInside (y z : X -> R) : Prop := forall x, inner x = true -> y x = z x.
(** consistify and RHS leave the conserved variables of the interior cells as they are (compositions are valid, C38) *)
Definition keepsInterior : Prop :=
  (forall t p, sameInside (pQ (con E t p)) (pQ p)) /\ (forall t p, sameInside (pQ (snd (rhs E t p))) (pQ p)).
(** after a consistify (whenever its boundary data were taken) the RHS at time t is f t of the interior state *)
Definition governedBy (f : R -> (X -> R) -> X -> R) : Prop :=
  (forall t0 t p, sameInside (fst (rhs E t (con E t0 p))) (f t (pQ p))) /\
  (forall t y z, sameInside y z -> sameInside (f t y) (f t z)).
(** the state the run starts from, and every step returns, has been made consistent *)
Definition consistent (s : solver X A) : Prop := exists t0 p, ph s = con E t0 p.
End Physics.
Definition autonomous {X} (f : R -> (X -> R) -> X -> R) : Prop := forall t t' y, f t y = f t' y.
(** * order *)
Definition linearOp {X} (L : (X -> R) -> X -> R) : Prop :=
  forall a y z, L (fun x => y x + a * z x) = fun x => L y x + a * L z x.
Fixpoint powOp {X} (n : nat) (L : (X -> R) -> X -> R) (y : X -> R) : X -> R := match n with O => y | S k => L (powOp k L y) end.
(** sum_{k <= n} dt^k/k! L^k y: the Taylor polynomial of exp(dt L) y *)
Fixpoint taylor {X} (n : nat) (L : (X -> R) -> X -> R) (dt : R) (y : X -> R) (x : X) : R :=
  match n with O => y x | S k => taylor k L dt y x + dt ^ n / INR (fact n) * powOp n L y x end.
(** a polynomial source c0 + c1 t + c2 t^2 + ... and its integral from a to b *)
Fixpoint poly (cs : list R) (k : nat) (t : R) : R := match cs with [] => 0 | c :: l => c * t ^ k + poly l (S k) t end.
Fixpoint polyInt (cs : list R) (k : nat) (a b : R) : R := match cs with [] => 0 | c :: l => c * (b ^ S k - a ^ S k) / INR (S k) + polyInt l (S k) a b end.
(** * invariants and convex sets *)
Definition linearFunctional {X} (phi : (X -> R) -> R) : Prop := forall a y z, phi (fun x => y x + a * z x) = phi y + a * phi z.
Definition convexSet {X} (C : (X -> R) -> Prop) : Prop :=
  forall a y z, 0 <= a <= 1 -> C y -> C z -> C (fun x => a * y x + (1 - a) * z x).
