(** Specification vocabulary for configurations. *)
From Coq Require Import Reals ZArith String List Bool.
From Verif Require Import M_Topology M_Halo M_Grid M_Metrics M_Flux M_FluxKernels M_Config.
Import ListNotations.
Open Scope string_scope.

(** the settings a user can write: the sections and keys of the default configuration *)
Definition knownSetting (s k : string) : Prop := exists v, cget defaultConfig s k = Some v.
(** the consistency rules of the documentation and of configFile.py's messages *)
Record consistentSettings (isNumber : value -> Prop) (c : config) : Prop := {
  dual_gas : opt c "timeIntegration" "integrator" = VStr "dualTime" -> opt c "thermochem" "eos" = VStr "cpg" \/ opt c "thermochem" "eos" = VStr "tpg";
  dual_fixed_step : opt c "timeIntegration" "integrator" = VStr "dualTime" -> truthy (opt c "timeIntegration" "variableTimeStep") = false;
  has_primary : opt c "RHS" "primaryAdvFlux" <> VNone;
  dissipation_needs_scalar : opt c "RHS" "shockHandling" = VStr "artificialDissipation" -> opt c "RHS" "secondaryAdvFlux" = VStr "scalarDissipation";
  hybrid_needs_flux : opt c "RHS" "shockHandling" = VStr "hybrid" -> opt c "RHS" "secondaryAdvFlux" <> VStr "scalarDissipation";
  shock_needs_secondary : opt c "RHS" "shockHandling" <> VNone -> opt c "RHS" "secondaryAdvFlux" <> VNone;
  secondary_iff_switch : opt c "RHS" "secondaryAdvFlux" <> VNone <-> opt c "RHS" "switchAdvFlux" <> VNone;
  sponge_needs_diffusion : truthy (opt c "viscousSponge" "spongeON") = true -> truthy (opt c "RHS" "diffusion") = true;
  dt_number : isNumber (opt c "timeIntegration" "dt");
  substeps_number : match opt c "thermochem" "nChemSubSteps" with VInt _ | VReal _ | VBool _ => True | _ => False end }.
(** a configuration made from the default one by setting values: all sections and keys are there, nothing else, and it is frozen *)
Definition wellFormed (c : config) : Prop :=
  frozen c = true /\ map fst (entries c) = map fst (entries defaultConfig) /\
  forall s d, getitem c s = Some d -> frozen d = true /\ exists d0, getitem defaultConfig s = Some d0 /\ map fst (entries d) = map fst (entries d0).
(** the cells a block with ng ghost layers stores *)
Definition existsCell (d : dims) (ng i j k : Z) : Prop := (0 <= i < ni d + 2 * ng - 1 /\ 0 <= j < nj d + 2 * ng - 1 /\ 0 <= k < nk d + 2 * ng - 1)%Z.
(** the settings and their defaults, as a table: section, setting, value a new configuration has *)
Definition documentedDefaults : list (string * string * value) := [
  ("io", "gridDir", VStr "./Grid"); ("io", "inputDir", VStr "./Input"); ("io", "restartDir", VStr "./Restart"); ("io", "archiveDir", VStr "./Archive");
  ("io", "animateArchive", VBool true); ("io", "animateRestart", VBool false); ("io", "lumpIO", VBool true);
  ("io", "niterArchive", VInt (10 ^ 9)); ("io", "niterRestart", VInt 10); ("io", "niterPrint", VInt 1); ("io", "saveExtraVars", VList []);
  ("simulation", "niter", VInt 1); ("simulation", "restartFrom", VInt 0); ("simulation", "checkNan", VBool false);
  ("timeIntegration", "integrator", VStr "rk3"); ("timeIntegration", "dt", VReal (1 / 10 ^ 3)); ("timeIntegration", "variableTimeStep", VBool false);
  ("timeIntegration", "maxDt", VReal (1 / 10 ^ 3)); ("timeIntegration", "maxCFL", VReal (1 / 10));
  ("RHS", "shockHandling", VNone); ("RHS", "primaryAdvFlux", VStr "KEPaEC"); ("RHS", "secondaryAdvFlux", VNone); ("RHS", "switchAdvFlux", VNone);
  ("RHS", "diffusion", VBool false); ("RHS", "subgrid", VNone);
  ("thermochem", "spdata", VList ["Air"]); ("thermochem", "eos", VStr "cpg"); ("thermochem", "trans", VStr "constantProps"); ("thermochem", "chemistry", VBool false);
  ("thermochem", "mechanism", VNone); ("thermochem", "nChemSubSteps", VInt 1);
  ("coprocess", "catalyst", VBool false); ("coprocess", "catalystFile", VStr "./Input/coproc.py"); ("coprocess", "trace", VBool false); ("coprocess", "niterTrace", VInt 1);
  ("viscousSponge", "spongeON", VBool false); ("viscousSponge", "origin", VCoord 0 0 0); ("viscousSponge", "ending", VCoord 1 0 0); ("viscousSponge", "multiplier", VReal 5) ].
