(** Specification vocabulary for C151: the values of the boundary-condition file and the places they belong. *)
From Coq Require Import Reals ZArith String List.
From Verif Require Import M_Topology M_Halo M_Bc M_Prep.
Import ListNotations.
Open Scope string_scope.

(** which primitive variable (p, u, v, w, T: 0..4) a value is *)
Definition prim (key : string) : option Z :=
  if String.eqb key "p" then Some 0%Z else if String.eqb key "pt" then Some 0%Z else if String.eqb key "u" then Some 1%Z else if String.eqb key "v" then Some 2%Z
  else if String.eqb key "w" then Some 3%Z else if String.eqb key "T" then Some 4%Z else if String.eqb key "Tt" then Some 4%Z else None.
(** the values each type of boundary needs, unless it is given a profile *)
Definition needed (k : bcKind) : list string :=
  match k with
  | constantVelocitySubsonicInlet => ["u"; "v"; "w"; "T"] | supersonicInlet => ["p"; "u"; "v"; "w"; "T"] | constantMassFluxSubsonicInlet => ["mDotPerUnitArea"; "T"]
  | stagnationSubsonicInlet => ["pt"; "Tt"] | constantPressureSubsonicExit => ["p"]
  | adiabaticMovingWall => ["u"; "v"; "w"] | isoTNoSlipWall | isoTSlipWall => ["T"] | isoTMovingWall => ["u"; "v"; "w"; "T"]
  | _ => []
  end.
Definition isInlet (k : bcKind) : Prop := k = constantVelocitySubsonicInlet \/ k = supersonicInlet \/ k = constantMassFluxSubsonicInlet \/ k = stagnationSubsonicInlet.
(** the name of a type in the connectivity and boundary-condition files *)
Definition typeName (k : bcKind) : string :=
  match k with
  | adiabaticNoSlipWall => "adiabaticNoSlipWall" | adiabaticSlipWall => "adiabaticSlipWall" | adiabaticMovingWall => "adiabaticMovingWall" | isoTNoSlipWall => "isoTNoSlipWall"
  | isoTSlipWall => "isoTSlipWall" | isoTMovingWall => "isoTMovingWall" | constantVelocitySubsonicInlet => "constantVelocitySubsonicInlet" | supersonicInlet => "supersonicInlet"
  | constantMassFluxSubsonicInlet => "constantMassFluxSubsonicInlet" | stagnationSubsonicInlet => "stagnationSubsonicInlet"
  | constantPressureSubsonicExit => "constantPressureSubsonicExit" | supersonicExit => "supersonicExit"
  | periodicRotLow => "periodicRotLow" | periodicRotHigh => "periodicRotHigh" | nullBc => "b0"
  end.
Definition isWallInletExit (k : bcKind) : Prop := k <> periodicRotLow /\ k <> periodicRotHigh /\ k <> nullBc.
(** a value under a key of the dictionary; "profile: true" *)
Definition asksProfile (v : valueDict) : Prop := get v "profile" = Some PTrue \/ exists r, get v "profile" = Some (PNum r) /\ r <> 0%R.
(** component l of qBcVals is given by a value of the file *)
Definition suppliedBy (k : bcKind) (l : Z) : Prop := (exists key, In key (needed k) /\ prim key = Some l) \/ isInlet k /\ (5 <= l)%Z.
(** the interior cells in front of a face, along its two directions *)
Definition faceCells (d : dims) (n : Z) : Z * Z := if (n <=? 2)%Z then (nj d - 1, nk d - 1)%Z else if (n <=? 4)%Z then (ni d - 1, nk d - 1)%Z else (ni d - 1, nj d - 1)%Z.
(** c is the interior index (ng .. ng+len-1) nearest to x *)
Definition nearest (ng len x c : Z) : Prop := (ng <= c < ng + len)%Z /\ forall c', (ng <= c' < ng + len)%Z -> (Z.abs (x - c) <= Z.abs (x - c'))%Z.
(** a saved profile of the right shape *)
Definition profileShape (blk : blkInfo) (n : Z) (a : npArr) : Prop := np_shape a = [fst (faceCells (bi_d blk) n); snd (faceCells (bi_d blk) n); bi_ne blk].
