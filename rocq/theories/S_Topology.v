(** Specification vocabulary for the topology properties, independent of the code's tables.

    docs/codeStructure and topologyFace.py:116-124 explain an orientation as three digits: the
    digit for axis [a] names the neighbour's axis that runs along our axis [a]; 1,2,3 mean "in the
    same sense", 4,5,6 "in the opposite sense". *)
From Coq Require Import ZArith String Ascii List Bool.
Import ListNotations.
Open Scope Z_scope.

Inductive axis := I | J | K.
Definition axis_eqb (a b : axis) : bool :=
  match a, b with I,I | J,J | K,K => true | _,_ => false end.

(** A signed axis: an axis together with a sense ([true] = positive). *)
Definition saxis := (axis * bool)%type.
Definition flip (s : saxis) : saxis := (fst s, negb (snd s)).

(** An abstract orientation: where each of our axes points in the neighbour's index space. *)
Definition orient := axis -> saxis.

(** It is legal when it is a signed permutation. *)
Definition legal (o : orient) : Prop :=
  forall a b, fst (o a) = fst (o b) -> a = b.

(** The signed permutation acts on signed axes. *)
Definition act (o : orient) (s : saxis) : saxis :=
  let t := o (fst s) in if snd s then t else flip t.

(** [o'] undoes [o]. *)
Definition inverse (o o' : orient) : Prop :=
  forall s, act o' (act o s) = s.

(** The textual form. *)
Definition axis_digit (a : axis) : Z := match a with I => 1 | J => 2 | K => 3 end.
Definition saxis_digit (s : saxis) : Z := axis_digit (fst s) + (if snd s then 0 else 3).
Definition digit_char (d : Z) : ascii := ascii_of_nat (Z.to_nat (48 + d)).
Definition show (o : orient) : string :=
  String (digit_char (saxis_digit (o I)))
    (String (digit_char (saxis_digit (o J)))
      (String (digit_char (saxis_digit (o K))) EmptyString)).

(** A face of a block is named by the outward signed axis it lies on: faces 1..6 are
    -i, +i, -j, +j, -k, +k. *)
Definition outward (n : Z) (s : saxis) : Prop :=
  match n with
  | 1 => s = (I, false) | 2 => s = (I, true)
  | 3 => s = (J, false) | 4 => s = (J, true)
  | 5 => s = (K, false) | 6 => s = (K, true)
  | _ => False
  end.


(** The three-digit string "abc". *)
Definition str3 (a b c : Z) : string :=
  String (digit_char a) (String (digit_char b) (String (digit_char c) EmptyString)).

(** The boundary types documented for users: interior, periodic, inlets, exits, walls. *)
Definition boundaryTypes : list string :=
  ["b0";
   "periodicTransLow"; "periodicTransHigh"; "periodicRotLow"; "periodicRotHigh";
   "constantVelocitySubsonicInlet"; "constantMassFluxSubsonicInlet"; "cubicSplineSubsonicInlet";
   "stagnationSubsonicInlet"; "supersonicInlet";
   "constantPressureSubsonicExit"; "supersonicExit";
   "adiabaticSlipWall"; "adiabaticNoSlipWall"; "adiabaticMovingWall";
   "isoTSlipWall"; "isoTNoSlipWall"; "isoTMovingWall"]%string.
