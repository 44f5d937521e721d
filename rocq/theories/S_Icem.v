(** Specification vocabulary for the ICEM conversion (C131-C133).
    A direction of a block is a signed axis; ICEM writes "i", "-j", ... for it. *)
From Coq Require Import ZArith String Ascii List Bool.
From Verif Require Import S_Topology.
Import ListNotations.
Open Scope string_scope.

Definition axisName (a : axis) : string := match a with I => "i" | J => "j" | S_Topology.K => "k" end.
Definition dirTok (s : saxis) : string := if snd s then axisName (fst s) else "-" ++ axisName (fst s).
(** [listed o n cs adjs]: the direction triples of the two lines describe a joint at face [n] with true orientation [o]: the three directions [cs] are along the three axes; a direction in the
    face is paired with the direction of the adjacent block it runs along; the outward normal is paired with the adjacent block's outward normal, which runs the opposite way *)
Definition listed (o : orient) (n : Z) (cs adjs : list saxis) : Prop :=
  NoDup (map fst cs) /\ List.length cs = 3%nat /\ List.length adjs = 3%nat /\
  forall i c a, nth_error cs i = Some c -> nth_error adjs i = Some a -> (outward n c -> act o c = flip a) /\ (~ outward n c -> act o c = a).
(** the range of points of (part of) face [n]: constant at the first or last point of its axis, of some extent along the other two *)
Definition onRange (last : axis -> Z) (n : Z) (lo hi : axis -> Z) : Prop :=
  exists a up, outward n (a, up) /\ (forall b, (1 <= lo b /\ hi b <= last b)%Z) /\ lo a = hi a /\ lo a = (if up then last a else 1%Z) /\ (1 < last a)%Z /\ (forall b, b <> a -> (lo b < hi b)%Z).
(** boundary types other than interior and periodic *)
Definition external : list string :=
  ["constantVelocitySubsonicInlet"; "constantMassFluxSubsonicInlet"; "cubicSplineSubsonicInlet"; "stagnationSubsonicInlet"; "supersonicInlet"; "constantPressureSubsonicExit"; "supersonicExit";
   "adiabaticSlipWall"; "adiabaticNoSlipWall"; "adiabaticMovingWall"; "isoTSlipWall"; "isoTNoSlipWall"; "isoTMovingWall"].
