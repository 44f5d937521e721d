(** Model of src/peregrinepy/writers/writeConfigFile.py:32-37.  Definitions only.
    Simplification: yaml.dump followed by yaml.load returns the document unchanged (the YAML library is not
    modelled); a document is, as in M_Config, the list of its sections, each the list of its items. *)
From Coq Require Import ZArith String List Bool Reals.
From Verif Require Import M_Config.
Import ListNotations.
Open Scope string_scope.

(** the inner loop (writeConfigFile.py:34-35): [connOut[k1][k2] = config[k1][k2]] for the keys in order *)
Definition copySection (d : fdict value) : list (string * value) :=
  fold_left (fun out k2 => match getitem d k2 with Some v => assign k2 v out | None => out end) (map fst (entries d)) [].
(** the outer loop (writeConfigFile.py:32-35) *)
Definition writeConfig (c : config) : list (string * list (string * value)) :=
  fold_left (fun out k1 => match getitem c k1 with Some d => assign k1 (copySection d) out | None => out end) (map fst (entries c)) [].
