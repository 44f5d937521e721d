(** Model of the species data: thermoTransport/{findUserSpData,completeSpecies,thtrdat}.py and misc/createViewMirrorArray.py.
    Definitions only.  Dictionaries keep insertion order: lists of pairs with distinct keys. *)
From Coq Require Import Reals ZArith String List Bool.
From Verif Require Import M_Config.
Import ListNotations.
Open Scope string_scope.

(** a YAML value below a species *)
Inductive val := VN (r : R) | VS (s : string) | VNull | VL (l : list val) | VDict.
(** what stands under a species name: a mapping of properties, nothing, or something else *)
Inductive spd := SpNone | SpOther | SpDict (d : list (string * val)).
Definition spDoc := list (string * spd).
Inductive spExn := KeyErr | TypeErr | ValueErr | IndexErr | AttrErr | AssertErr | OtherErr.
Inductive spRes (A : Type) := SOk (a : A) | SErr (e : spExn).
Arguments SOk {A}. Arguments SErr {A}.
Definition sbind {A B} (r : spRes A) (f : A -> spRes B) : spRes B := match r with SOk a => f a | SErr e => SErr e end.
Fixpoint smapM {A B} (f : A -> spRes B) (l : list A) : spRes (list B) :=
  match l with [] => SOk [] | x :: r => sbind (f x) (fun y => sbind (smapM f r) (fun ys => SOk (y :: ys))) end.

(** refsp[sp][key] (completeSpecies.py:13, 20): TypeError when the library's entry is not a mapping *)
Definition fromLibrary (refsp : spDoc) (sp key : string) : spRes val :=
  match lookup sp refsp with
  | None => SErr KeyErr
  | Some (SpDict d) => match lookup key d with Some v => SOk v | None => SErr KeyErr end
  | Some _ => SErr TypeErr
  end.
(** completeSpecies.py:8-29, one species.  usersp[sp][key] raises KeyError when the key is absent and TypeError when the entry is no mapping;
    both handlers then read the library *)
Definition pickValue (refsp : spDoc) (key : string) (e : string * spd) : spRes val :=
  match snd e with
  | SpDict d => match lookup key d with Some v => SOk v | None => fromLibrary refsp (fst e) key end
  | _ => fromLibrary refsp (fst e) key
  end.
(** floating-point numbers that matter here *)
Inductive flt := Num (r : R) | NaN.
(** np.array(..., dtype=float64) of a scalar: None becomes nan; [parse] is float() of a string *)
Definition toFlt (parse : string -> option R) (v : val) : spRes flt :=
  match v with
  | VN r => SOk (Num r) | VNull => SOk NaN | VS s => match parse s with Some r => SOk (Num r) | None => SErr ValueErr end
  | VL _ => SErr ValueErr | VDict => SErr TypeErr
  end.
(** completeSpecies' result: a list of strings, or a numpy array of one or two dimensions.  Simplification: deeper nesting counts as ragged *)
Inductive spArr := Texts (l : list val) | D1 (l : list flt) | D2 (l : list (list flt)).
(** np.array(prop, dtype=np.float64) (completeSpecies.py:32) *)
Definition rowOf (parse : string -> option R) (v : val) : spRes (list flt) :=
  match v with VL l => smapM (toFlt parse) l | _ => SErr ValueErr end.
Definition npArray (parse : string -> option R) (prop : list val) : spRes spArr :=
  match prop with
  | VL l0 :: _ => sbind (smapM (rowOf parse) prop) (fun rows =>
      if forallb (fun r => Nat.eqb (List.length r) (List.length l0)) rows then SOk (D2 rows) else SErr ValueErr)
  | _ => sbind (smapM (toFlt parse) prop) (fun l => SOk (D1 l))
  end.
(** completeSpecies (completeSpecies.py:4-32) *)
Definition completeSpecies (parse : string -> option R) (key : string) (usersp refsp : spDoc) : spRes spArr :=
  sbind (smapM (pickValue refsp key) usersp) (fun prop =>
    match prop with
    | [] => SErr IndexErr
    | VS _ :: _ => SOk (Texts prop)
    | _ => npArray parse prop
    end).

(** createViewMirrorArray (createViewMirrorArray.py:26-56) for an existing array and shape [ns]: what the view holds.  The assertion compares only the
    dimensions both have; the assignment broadcasts as numpy does *)
Definition createView1 (ns : nat) (a : spArr) : spRes (list flt) :=
  match a with
  | Texts _ => SErr AttrErr
  | D1 l => if Nat.eqb (List.length l) ns then SOk l else SErr AssertErr
  | D2 rows => if Nat.eqb (List.length rows) ns then match rows with [[x]] => SOk [x] | _ => SErr ValueErr end else SErr AssertErr
  end.
(** ... and for shape [ns, k] *)
Definition createView2 (ns k : nat) (a : spArr) : spRes (list (list flt)) :=
  match a with
  | Texts _ => SErr AttrErr
  | D2 rows => if (Nat.eqb (List.length rows) ns && forallb (fun r => Nat.eqb (List.length r) k) rows)%bool then SOk rows else SErr AssertErr
  | D1 l => if Nat.eqb (List.length l) ns then (if Nat.eqb ns k then SOk (repeat l ns) else match l with [x] => SOk [repeat x k] | _ => SErr ValueErr end) else SErr AssertErr
  end.

(** {i: None for i in spdata} (findUserSpData.py:16; thtrdat.py:59-61): repeated names collapse onto the first *)
Fixpoint dedup (seen l : list string) : list string :=
  match l with [] => [] | x :: r => if existsb (String.eqb x) seen then dedup seen r else x :: dedup (x :: seen) r end.
Definition fromNames (l : list string) : spDoc := map (fun n => (n, SpNone)) (dedup [] l).
(** what open(path) and yaml.load give *)
Inductive spFile := Missing | Unreadable | Loaded (d : spDoc).
(** findUserSpData.py:20-36: the candidate paths, in order, and the first that opens.  [here] is the package directory *)
Definition spLocs (inputDir here spdata : string) : list string :=
  [inputDir ++ "/" ++ spdata; "./" ++ spdata; here ++ "/database/" ++ spdata; spdata].
Fixpoint firstFile (fs : string -> spFile) (locs : list string) : spRes spDoc :=
  match locs with
  | [] => SErr ValueErr
  | p :: r => match fs p with Loaded d => SOk d | Unreadable => SErr OtherErr | Missing => firstFile fs r end
  end.
(** findUserSpData (findUserSpData.py:4-37); f-strings of values other than text are not modelled *)
Definition findUserSpData (fs : string -> spFile) (here : string) (c : config) : spRes spDoc :=
  match opt c "thermochem" "spdata", opt c "io" "inputDir" with
  | VList l, _ => SOk (fromNames l)
  | VStr s, VStr dir => firstFile fs (spLocs dir here s)
  | _, _ => SErr OtherErr
  end.

(** x in y for strings *)
Fixpoint contains (x y : string) : bool := (prefix x y || match y with EmptyString => false | String _ y' => contains x y' end)%bool.
(** thtrdat.__init__ (thtrdat.py:79-157): the views that exist afterwards, the data being complete *)
Definition createdArrays (c : config) : spRes (list string) :=
  let eos := opt c "thermochem" "eos" in
  sbind (if isStr eos "cpg" then SOk ["MW"; "cp0"] else if (isStr eos "tpg" || isStr eos "cubic")%bool then SOk ["MW"; "NASA7"] else SErr KeyErr) (fun base =>
  let crit := if isStr eos "cubic" then ["Tcrit"; "pcrit"; "Vcrit"; "acentric"] else [] in
  if truthy (opt c "RHS" "diffusion") then
    match opt c "thermochem" "trans" with
    | VStr t =>
        if contains "kineticTheory" t then SOk (base ++ crit ++ ["muPoly"; "kappaPoly"; "DijPoly"])%list
        else if String.eqb t "constantProps" then SOk (base ++ crit ++ ["mu0"; "kappa0"])%list
        else if contains "chungDenseGas" t then SOk (base ++ crit ++ ["chungA"; "chungB"; "redDipole"])%list
        else SErr KeyErr
    | _ => SErr TypeErr
    end
  else SOk (base ++ crit)%list).
