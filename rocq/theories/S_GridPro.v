(** Specification vocabulary for C129: what a GridPro label means. *)
From Coq Require Import Reals ZArith String Ascii List Bool.
From Verif Require Import M_Config M_Topology M_GridPro.
Import ListNotations.
Open Scope string_scope.

(** [means fams label fam type]: a surface with this GridPro label belongs to family [fam] and has boundary type [type] *)
Definition means (fams : list (string * gpFam)) (label : string) (fam : option string) (type : string) : Prop :=
  (label = "pdc:INTERBLK" /\ lookup "b0" fams = None /\ fam = None /\ type = "b0") \/
  (label = "pdc:WALL" /\ lookup "adiabaticNoSlipWall" fams = None /\ fam = None /\ type = "adiabaticNoSlipWall") \/
  (label = "pdc:user8" /\ lookup "adiabaticSlipWall" fams = None /\ fam = None /\ type = "adiabaticSlipWall") \/
  (~ In label ["pdc:INTERBLK"; "pdc:WALL"; "pdc:user8"] /\ exists name, label = "pdc:" ++ name /\
     ((exists f, lookup name fams = Some f /\ fam = Some name /\ type = fmType f) \/
      (lookup name fams = None /\ name = "PERIODIC" /\
         exists before key f after, fams = (before ++ (key, f) :: after)%list /\ prefix "periodic" key = true /\ (forall k, In k before -> prefix "periodic" (fst k) = false) /\
           fam = Some key /\ type = fmType f ++ "Low") \/
      (lookup name fams = None /\ name <> "PERIODIC" /\ In name validBcTypes /\ fam = None /\ type = name))).
(** the name does not begin or end with one of the characters p, d, c, : *)
Definition endsSafe (name : string) : Prop :=
  (exists c r, name = String c r /\ ~ In c ["p"; "d"; "c"; ":"]%char) /\ (exists r c, name = r ++ String c "" /\ ~ In c ["p"; "d"; "c"; ":"]%char).
