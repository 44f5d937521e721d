(** Specification vocabulary for the species-data properties C126-C128. *)
From Coq Require Import Reals ZArith String List Bool.
From Verif Require Import M_Config M_Species.
Import ListNotations.
Open Scope string_scope.

(** the user's input gives species entry e the value v for a property; or says nothing about it *)
Definition userGives (e : spd) (key : string) (v : val) : Prop := exists d, e = SpDict d /\ lookup key d = Some v.
Definition userSilent (e : spd) (key : string) : Prop := forall v, ~ userGives e key v.
(** the library gives a species the value v *)
Definition libraryGives (lib : spDoc) (sp key : string) (v : val) : Prop := exists d, lookup sp lib = Some (SpDict d) /\ lookup key d = Some v.
(** the value a species is to have: the user's, failing that the library's *)
Definition valueOf (lib : spDoc) (e : string * spd) (key : string) (v : val) : Prop :=
  userGives (snd e) key v \/ (userSilent (snd e) key /\ libraryGives lib (fst e) key v).
(** the number a scalar stands for *)
Definition numberIs (parse : string -> option R) (v : val) (r : R) : Prop := v = VN r \/ exists s, v = VS s /\ parse s = Some r.
Definition numbersAre (parse : string -> option R) (v : val) (rs : list R) : Prop := exists l, v = VL l /\ Forall2 (numberIs parse) l rs.

(** the views each compute function reads (grep th. in src/compute) *)
Definition readsViews (kernel : string) : list string :=
  match lookup kernel
    [("cpg", ["MW"; "cp0"]); ("tpg", ["MW"; "NASA7"]); ("cubic", ["MW"; "NASA7"; "Tcrit"; "pcrit"; "acentric"]);
     ("constantProps", ["MW"; "mu0"; "kappa0"]); ("kineticTheory", ["MW"; "muPoly"; "kappaPoly"; "DijPoly"]);
     ("kineticTheoryUnityLewis", ["MW"; "muPoly"; "kappaPoly"]);
     ("chungDenseGasUnityLewis", ["MW"; "Tcrit"; "Vcrit"; "acentric"; "redDipole"; "chungA"; "chungB"]);
     ("chem_C2H4_Air_Red22", ["MW"; "NASA7"]); ("chem_C2H4_Air_Skeletal", ["MW"; "NASA7"]); ("chem_CH4_O2_FFCMY", ["MW"; "NASA7"]); ("chem_GRI30", ["MW"; "NASA7"])]
  with Some l => l | None => [] end.
(** the kernels of a solver that read species data *)
Definition speciesKernels (s : selected) : list string :=
  let o x := match x with Some n => [n] | None => [] end in
  (s_eos s :: o (s_trans s) ++ o (s_expChem s) ++ o (s_impChem s))%list.
(** number of species the mechanisms are written for (size of their Y arrays) *)
Definition mechanismSpecies (kernel : string) : option nat :=
  lookup kernel [("chem_C2H4_Air_Red22", 22); ("chem_C2H4_Air_Skeletal", 32); ("chem_CH4_O2_FFCMY", 12); ("chem_GRI30", 53)]%nat.
