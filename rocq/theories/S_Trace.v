(** Specification for C120-C122, written without the model's helpers. *)
From Coq Require Import Reals ZArith String List Bool.
Import ListNotations.
Open Scope R_scope.

Definition point := (R * R * R)%type.
(** the point p0 + s (p1 - p0) + t (p2 - p0) *)
Definition along (p0 p1 p2 : point) (s t : R) : point :=
  let '(x0, y0, z0) := p0 in let '(x1, y1, z1) := p1 in let '(x2, y2, z2) := p2 in
  (x0 + s * (x1 - x0) + t * (x2 - x0), y0 + s * (y1 - y0) + t * (y2 - y0), z0 + s * (z1 - z0) + t * (z2 - z0)).
(** the i-th of n equally spaced parameters, both ends included *)
Definition fraction (i n : Z) : R := IZR i / IZR (n - 1).
(** n equally spaced points from p0 to p1 *)
Definition evenlySpaced (p0 p1 : point) (n : Z) (l : list point) : Prop :=
  List.length l = Z.to_nat n /\ forall i, (0 <= i < n)%Z -> nth_error l (Z.to_nat i) = Some (along p0 p1 p0 (fraction i n) 0).
(** n1 x n2 points of the parallelogram with corners p0, p1, p2 *)
Definition parallelogram (p0 p1 p2 : point) (n1 n2 : Z) (l : list point) : Prop :=
  List.length l = Z.to_nat (n1 * n2) /\
  forall i j, (0 <= i < n1)%Z -> (0 <= j < n2)%Z -> nth_error l (Z.to_nat (i * n2 + j)) = Some (along p0 p1 p2 (fraction i n1) (fraction j n2)).
(** distance of two points, squared *)
Definition sqDist (a b : point) : R :=
  let '(x0, y0, z0) := a in let '(x1, y1, z1) := b in (x1 - x0) * (x1 - x0) + (y1 - y0) * (y1 - y0) + (z1 - z0) * (z1 - z0).

(** the grid a point is looked up in: blocks in file order, each with its number, the region it covers and its numbered cell centres *)
Record region := mkRegion { number : Z; covers : point -> bool; centres : list ((Z * Z * Z) * point) }.
(** (n, c) is the home of p: n numbers the first block covering p, and c is a cell of that block no other of which is nearer *)
Definition home (g : list region) (p : point) (n : Z) (c : Z * Z * Z) : Prop :=
  exists before b after, g = before ++ b :: after /\ (forall b', In b' before -> covers b' p = false) /\ covers b p = true /\ number b = n /\
    exists x, In (c, x) (centres b) /\ forall c' x', In (c', x') (centres b) -> sqDist p x <= sqDist p x'.
Definition homeless (g : list region) (p : point) : Prop := forall b, In b g -> covers b p = false.
