(** When an entry of the boundary-condition file fits a face. *)
From Coq Require Import String List.
Import ListNotations.
Open Scope string_scope.
(** s starts with p *)
Definition startsWith (p s : string) : Prop := exists r, s = p ++ r.
(** the type in the file is the face's type; or the file says "periodicTrans", say, and the face is the Low or High side of it *)
Definition fits (fileType faceType : string) : Prop := fileType = faceType \/ startsWith "periodic" fileType /\ startsWith fileType faceType.
Definition periodicType (faceType : string) : Prop := startsWith "periodic" faceType.
(** the types that need no entry *)
Definition needsNothing (ty : string) : Prop := ty = "b0" \/ ty = "supersonicExit" \/ ty = "adiabaticNoSlipWall" \/ ty = "adiabaticSlipWall".
(** the inlets, exits and walls a boundary-condition file can give values for *)
Definition valueTypes : list string :=
  [ "constantVelocitySubsonicInlet"; "cubicSplineSubsonicInlet"; "supersonicInlet"; "constantMassFluxSubsonicInlet"; "stagnationSubsonicInlet";
    "constantPressureSubsonicExit"; "supersonicExit";
    "adiabaticNoSlipWall"; "adiabaticSlipWall"; "adiabaticMovingWall"; "isoTNoSlipWall"; "isoTSlipWall"; "isoTMovingWall" ].
Definition endsWith (p s : string) : Prop := exists r, s = r ++ p.
(** the group of compute functions a type belongs to, by its name *)
Definition groupOf (ty group : string) : Prop :=
  endsWith "Inlet" ty /\ group = "inlets" \/ endsWith "Exit" ty /\ group = "exits" \/ endsWith "Wall" ty /\ group = "walls" \/ startsWith "periodicRot" ty /\ group = "periodics".
