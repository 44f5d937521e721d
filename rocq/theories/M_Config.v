(** Model of the configuration and of the choice of compute functions:
    src/peregrinepy/misc/frozenDict.py, files/configFile.py, readers/readConfigFile.py, multiBlock/__init__.py:25-245. *)
From Coq Require Import Reals ZArith String Ascii List Bool.
From Verif Require Import M_Topology M_Halo M_Grid M_Metrics M_Flux M_FluxKernels.
Import ListNotations.
Open Scope string_scope.

(** * frozenDict.py *)
Record fdict (V : Type) := mkFD { entries : list (string * V); frozen : bool }.
Arguments mkFD {V}. Arguments entries {V}. Arguments frozen {V}.
Fixpoint lookup {V} (k : string) (l : list (string * V)) : option V :=
  match l with [] => None | (k', v) :: r => if String.eqb k k' then Some v else lookup k r end.
Fixpoint assign {V} (k : string) (v : V) (l : list (string * V)) : list (string * V) :=
  match l with [] => [(k, v)] | (k', v') :: r => if String.eqb k k' then (k', v) :: r else (k', v') :: assign k v r end.
Fixpoint remove {V} (k : string) (l : list (string * V)) : list (string * V) :=
  match l with [] => [] | (k', v') :: r => if String.eqb k k' then r else (k', v') :: remove k r end.
Definition hasKey {V} (k : string) (d : fdict V) : bool := match lookup k (entries d) with Some _ => true | None => false end.
(** d[k] (inherited from dict); None is the KeyError *)
Definition getitem {V} (d : fdict V) (k : string) : option V := lookup k (entries d).
(** __setitem__ (frozenDict.py:11-16); None is the KeyError *)
Definition setitem {V} (d : fdict V) (k : string) (v : V) : option (fdict V) :=
  if (frozen d && negb (hasKey k d))%bool then None else Some (mkFD (assign k v (entries d)) (frozen d)).
(** _freeze (frozenDict.py:18-19) *)
Definition freeze {V} (d : fdict V) : fdict V := mkFD (entries d) true.
(** the other mutators of dict are inherited unchanged: they do not go through __setitem__ *)
Inductive dictOp (V : Type) :=
  | OpGet (k : string) | OpSet (k : string) (v : V)
  | OpUpdate (kvs : list (string * V)) | OpSetdefault (k : string) (v : V) | OpPop (k : string).
Arguments OpGet {V}. Arguments OpSet {V}. Arguments OpUpdate {V}. Arguments OpSetdefault {V}. Arguments OpPop {V}.
(** the dictionary afterwards and whether the call returned normally (true) or raised KeyError *)
Definition execOp {V} (d : fdict V) (o : dictOp V) : fdict V * bool :=
  match o with
  | OpGet k => (d, match getitem d k with Some _ => true | None => false end)
  | OpSet k v => match setitem d k v with Some d' => (d', true) | None => (d, false) end
  | OpUpdate kvs => (mkFD (fold_left (fun l kv => assign (fst kv) (snd kv) l) kvs (entries d)) (frozen d), true)
  | OpSetdefault k v => (if hasKey k d then d else mkFD (assign k v (entries d)) (frozen d), true)
  | OpPop k => (mkFD (remove k (entries d)) (frozen d), hasKey k d)
  end.
Definition execOps {V} (d : fdict V) (os : list (dictOp V)) : fdict V := fold_left (fun d o => fst (execOp d o)) os d.

(** * configFile.py.  Values as YAML and the defaults give them; lists are lists of strings (Simplification: the two coordinate lists are VCoord). *)
Inductive value := VNone | VBool (b : bool) | VInt (z : Z) | VReal (r : R) | VStr (s : string) | VList (l : list string) | VCoord (x y z : R).
(** Python truth value *)
Definition truthy (v : value) : bool :=
  match v with
  | VNone => false | VBool b => b | VInt z => negb (z =? 0)%Z | VReal r => if Req_EM_T r 0%R then false else true
  | VStr s => negb (String.eqb s "") | VList l => match l with [] => false | _ => true end | VCoord _ _ _ => true
  end.
Definition isStr (v : value) (s : string) : bool := match v with VStr t => String.eqb t s | _ => false end.
Definition isNone (v : value) : bool := match v with VNone => true | _ => false end.
Definition config := fdict (fdict value).
(** __init__ (configFile.py:18-96) *)
Definition defaultConfig : config := mkFD [
  ("io", mkFD [("gridDir", VStr "./Grid"); ("inputDir", VStr "./Input"); ("restartDir", VStr "./Restart"); ("archiveDir", VStr "./Archive");
     ("animateArchive", VBool true); ("animateRestart", VBool false); ("lumpIO", VBool true); ("niterArchive", VInt 1000000000);
     ("niterRestart", VInt 10); ("niterPrint", VInt 1); ("saveExtraVars", VList [])] true);
  ("simulation", mkFD [("niter", VInt 1); ("restartFrom", VInt 0); ("checkNan", VBool false)] true);
  ("timeIntegration", mkFD [("integrator", VStr "rk3"); ("dt", VReal (1/1000)); ("variableTimeStep", VBool false); ("maxDt", VReal (1/1000)); ("maxCFL", VReal (1/10))] true);
  ("RHS", mkFD [("shockHandling", VNone); ("primaryAdvFlux", VStr "KEPaEC"); ("secondaryAdvFlux", VNone); ("switchAdvFlux", VNone);
     ("diffusion", VBool false); ("subgrid", VNone)] true);
  ("thermochem", mkFD [("spdata", VList ["Air"]); ("eos", VStr "cpg"); ("trans", VStr "constantProps"); ("chemistry", VBool false);
     ("mechanism", VNone); ("nChemSubSteps", VInt 1)] true);
  ("coprocess", mkFD [("catalyst", VBool false); ("catalystFile", VStr "./Input/coproc.py"); ("trace", VBool false); ("niterTrace", VInt 1)] true);
  ("viscousSponge", mkFD [("spongeON", VBool false); ("origin", VCoord 0 0 0); ("ending", VCoord 1 0 0); ("multiplier", VReal 5)] true)] true.
(** config[s][k] *)
Definition cget (c : config) (s k : string) : option value := match getitem c s with None => None | Some d => getitem d k end.
(** config[s][k] = v : the inner dictionary is changed in place; None is a KeyError of either level *)
Definition cset (c : config) (s k : string) (v : value) : option config :=
  match getitem c s with
  | None => None
  | Some d => match setitem d k v with None => None | Some d' => Some (mkFD (assign s d' (entries c)) (frozen c)) end
  end.
(** readConfigFile.py:27-31: connIn is the parsed YAML document (the YAML parser is not modelled) *)
Fixpoint setKeys (c : config) (s : string) (kvs : list (string * value)) : option config :=
  match kvs with [] => Some c | (k, v) :: r => match cset c s k v with None => None | Some c' => setKeys c' s r end end.
Fixpoint readInto (c : config) (doc : list (string * list (string * value))) : option config :=
  match doc with [] => Some c | (s, kvs) :: r => match setKeys c s kvs with None => None | Some c' => readInto c' r end end.
Definition readConfig (doc : list (string * list (string * value))) : option config := readInto defaultConfig doc.

(** the value of a setting (every setting of a config exists: C58) *)
Definition opt (c : config) (s k : string) : value := match cget c s k with Some v => v | None => VNone end.
(** float(x); [parse] is what float() makes of a string *)
Definition toFloat (parse : string -> option R) (v : value) : option R :=
  match v with VReal r => Some r | VInt z => Some (IZR z) | VBool b => Some (if b then 1 else 0)%R | VStr s => parse s | _ => None end.
(** max(1, x): None is the TypeError of comparing with None, a string or a list *)
Definition atLeast1 (v : value) : option value :=
  match v with
  | VInt z => Some (VInt (Z.max 1 z)) | VReal r => Some (if Rlt_dec 1 r then VReal r else VInt 1)
  | VBool b => Some (VInt 1) | _ => None
  end.
(** validateConfig (configFile.py:98-187): the config afterwards, or None if anything is raised *)
Definition validateConfig (parse : string -> option R) (c0 : config) : option config :=
  match (if isNone (opt c0 "io" "saveExtraVars") then cset c0 "io" "saveExtraVars" (VList []) else Some c0) with
  | None => None
  | Some c1 =>
  let ti := opt c1 "timeIntegration" "integrator" in let eos := opt c1 "thermochem" "eos" in
  match toFloat parse (opt c1 "timeIntegration" "dt") with
  | None => None
  | Some dt =>
  match cset c1 "timeIntegration" "dt" (VReal dt) with
  | None => None
  | Some c =>
  if (isStr ti "dualTime" && negb (isStr eos "cpg" || isStr eos "tpg"))%bool then None
  else if (isStr ti "dualTime" && truthy (opt c "timeIntegration" "variableTimeStep"))%bool then None
  else
  let primary := opt c "RHS" "primaryAdvFlux" in let secondary := opt c "RHS" "secondaryAdvFlux" in
  let switch := opt c "RHS" "switchAdvFlux" in let shock := opt c "RHS" "shockHandling" in
  if isNone primary then None
  else if (isStr shock "artificialDissipation" && negb (isStr secondary "scalarDissipation"))%bool then None
  else if (isStr shock "hybrid" && isStr secondary "scalarDissipation")%bool then None
  else if (negb (isNone shock) && isNone secondary)%bool then None
  else if (if isNone switch then negb (isNone secondary) else isNone secondary) then None
  else if (truthy (opt c "viscousSponge" "spongeON") && negb (truthy (opt c "RHS" "diffusion")))%bool then None
  else match atLeast1 (opt c "thermochem" "nChemSubSteps") with None => None | Some n => cset c "thermochem" "nChemSubSteps" n end
  end end end.

(** * multiBlock/__init__.py *)
(** names bound in the compute submodules (bindings{AdvFlux,Thermo,Transport,Switches,Subgrid,Chemistry}.cpp).  Simplification: getattr also finds
    the modules' other attributes, such as __doc__ or thtrdat_. *)
Definition advFluxNames : list string := ["KEEP"; "KEEPpe"; "KEPaEC"; "centralDifference"; "scalarDissipation"; "fourthOrderKEEP"; "rusanov"; "ausmPlusUp"; "hllc"; "muscl2hllc"; "muscl2rusanov"].
Definition thermoNames : list string := ["cpg"; "tpg"; "cubic"].
Definition transportNames : list string := ["kineticTheory"; "constantProps"; "kineticTheoryUnityLewis"; "chungDenseGasUnityLewis"].
Definition switchNames : list string := ["jamesonPressure"; "vanAlbadaPressure"; "vanLeer"].
Definition subgridNames : list string := ["mixedScaleModel"; "smagorinsky"].
Definition chemistryNames : list string := ["chem_C2H4_Air_Red22"; "chem_C2H4_Air_Skeletal"; "chem_CH4_O2_FFCMY"; "chem_GRI30"].
Definition getattr (names : list string) (v : value) : option string :=
  match v with VStr s => if existsb (String.eqb s) names then Some s else None | _ => None end.
(** howManyNG (multiBlock/__init__.py:167-204); None is the KeyError *)
Definition advFluxNG (v : value) : option Z :=
  match v with
  | VNone => Some 1%Z
  | VStr s => lookup s [("KEEP", 1%Z); ("KEEPpe", 1%Z); ("KEPaEC", 1%Z); ("centralDifference", 1%Z); ("fourthOrderKEEP", 2%Z); ("hllc", 1%Z);
                        ("rusanov", 1%Z); ("muscl2hllc", 2%Z); ("muscl2rusanov", 2%Z); ("scalarDissipation", 2%Z)]
  | _ => None
  end.
Definition subgridNG (v : value) : option Z :=
  match v with VNone => Some 1%Z | VStr s => lookup s [("mixedScaleModel", 2%Z); ("smagorinsky", 1%Z)] | _ => None end.
Definition howManyNG (c : config) : option Z :=
  match advFluxNG (opt c "RHS" "primaryAdvFlux") with
  | None => None
  | Some a => match advFluxNG (opt c "RHS" "secondaryAdvFlux") with
    | None => None
    | Some b => match subgridNG (opt c "RHS" "subgrid") with None => None | Some s => Some (Z.max (Z.max (Z.max 1 a) b) s) end
    end
  end.
(** the integrators and their stepType (integrators/__init__.py:11-29 and the classes' constructors) *)
Definition stepType (v : value) : option string :=
  match v with
  | VStr s => lookup s [("rk1", "explicit"); ("rk2", "explicit"); ("maccormack", "explicit"); ("rk3", "explicit"); ("rk34", "explicit"); ("rk4", "explicit");
                        ("strang", "split"); ("dualTime", "dualTime")]
  | _ => None
  end.
(** what a solver ends up calling; None is misc.null *)
Inductive applyName := ApplyFlux | ApplyHybridFlux | ApplyDissipationFlux.
Record selected := mkSel {
  s_ng : Z; s_eos : string; s_trans : option string; s_switch : option string; s_phiComm : bool;
  s_primary : string; s_applyPrimary : applyName; s_secondary : option string; s_applySecondary : option applyName;
  s_diffusion : bool; s_sgs : option string; s_sponge : bool; s_expChem : option string; s_impChem : option string }.
(** generateMultiBlockSolver with setConsistify and setRHS (multiBlock/__init__.py:25-245); None if anything is raised.  The species data
    (findUserSpData, thtrdat) are taken to load. *)
Definition selectFunctions (c : config) : option selected :=
  match stepType (opt c "timeIntegration" "integrator"), howManyNG c, getattr thermoNames (opt c "thermochem" "eos") with
  | Some st, Some ng, Some eos =>
    let diff := truthy (opt c "RHS" "diffusion") in
    match (if diff then match getattr transportNames (opt c "thermochem" "trans") with Some t => Some (Some t) | None => None end else Some None),
          (if isNone (opt c "RHS" "switchAdvFlux") then Some None else match getattr switchNames (opt c "RHS" "switchAdvFlux") with Some t => Some (Some t) | None => None end),
          getattr advFluxNames (opt c "RHS" "primaryAdvFlux") with
    | Some trans, Some switch, Some primary =>
      let shock := opt c "RHS" "shockHandling" in let sec := opt c "RHS" "secondaryAdvFlux" in
      match (if (isNone shock || isStr shock "artificialDissipation")%bool then Some ApplyFlux else if isStr shock "hybrid" then Some ApplyHybridFlux else None),
            (if isNone sec then Some None else if isNone shock then None (* assert, lines 94-96 *) else match getattr advFluxNames sec with Some t => Some (Some t) | None => None end) with
      | Some ap, Some secondary =>
        let as_ := if isNone shock then None else if isStr shock "artificialDissipation" then Some ApplyDissipationFlux else Some ApplyHybridFlux in
        match (if diff then (if isNone (opt c "RHS" "subgrid") then Some None else match getattr subgridNames (opt c "RHS" "subgrid") with Some t => Some (Some t) | None => None end) else Some None),
              (if truthy (opt c "thermochem" "chemistry") then match getattr chemistryNames (opt c "thermochem" "mechanism") with None => None
                 | Some m => if String.eqb st "split" then Some (None, Some m) else Some (Some m, None) end else Some (None, None)) with
        | Some sgs, Some (ex, im) =>
            Some (mkSel ng eos trans switch (negb (isNone (opt c "RHS" "switchAdvFlux"))) primary ap secondary as_ diff sgs (truthy (opt c "viscousSponge" "spongeON")) ex im)
        | _, _ => None
        end
      | _, _ => None
      end
    | _, _, _ => None
    end
  | _, _, _ => None
  end.

(** * the selected functions at work: RHS.py:12-22 for one block.  A primary or secondary flux function fills the flux arrays, an apply function
    adds their difference to dQ. *)
Definition fluxFunction (name : string) (phi : array4) (X : nodes) (c : Z -> Z -> Z -> cell) : option fluxes :=
  if String.eqb name "KEEP" then Some (blockFlux KEEP X c) else if String.eqb name "KEEPpe" then Some (blockFlux KEEPpe X c)
  else if String.eqb name "KEPaEC" then Some (blockFlux KEPaEC X c) else if String.eqb name "centralDifference" then Some (blockFlux centralDifference X c)
  else if String.eqb name "fourthOrderKEEP" then Some (blockFlux fourthOrderKEEP X c) else if String.eqb name "rusanov" then Some (blockFlux rusanov X c)
  else if String.eqb name "hllc" then Some (blockFlux hllc X c) else if String.eqb name "muscl2hllc" then Some (blockFlux muscl2hllc X c)
  else if String.eqb name "muscl2rusanov" then Some (blockFlux muscl2rusanov X c) else if String.eqb name "scalarDissipation" then Some (scalarDissipation phi X c)
  else None.
Definition applyFunction (a : applyName) (d : dims) (ng ne : Z) (J : array3 R) (phi : array4) (primary : R) (F : fluxes) (dQ : array4) : array4 :=
  match a with ApplyFlux => applyFlux d ng ne J F dQ | ApplyHybridFlux => applyHybridFlux d ng ne J phi primary F dQ | ApplyDissipationFlux => applyDissipationFlux d ng ne J F dQ end.
Definition rhsAdvective (s : selected) (d : dims) (ne : Z) (X : nodes) (J : array3 R) (phi : array4) (c : Z -> Z -> Z -> cell) : option array4 :=
  match fluxFunction (s_primary s) phi X c with
  | None => None
  | Some F1 =>
    let dQ := applyFunction (s_applyPrimary s) d (s_ng s) ne J phi 1 F1 dQzero in
    match (match s_secondary s with None => Some F1 | Some n => fluxFunction n phi X c end) with
    | None => None
    | Some F2 => Some (match s_applySecondary s with None => dQ | Some a => applyFunction a d (s_ng s) ne J phi 0 F2 dQ end)
    end
  end.
