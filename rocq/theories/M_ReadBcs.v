(** Model of src/peregrinepy/readers/readBcs.py and of solverFace._setBcFunc.  Definitions only.
    The YAML parser is not modelled: the file is the dictionary it gives (None for a missing or empty file).  The values of a family are of a type of which only the entries read here are known;
    what a prep_ function computes from them (prepInlets.py, prepExits.py, prepWalls.py) is a parameter here and modelled in M_Prep.  Printing is left out. *)
From Coq Require Import Reals ZArith List Bool String.
From Verif Require Import M_Topology M_Grid M_Metrics M_Bc.
Import ListNotations.
Open Scope R_scope.

Inductive exn := KeyError | ValueError | OtherError.
Inductive res (A : Type) := Ok (a : A) | Raise (e : exn).
Arguments Ok {A}. Arguments Raise {A}.
Inductive faceKind := TopologyFace | GridFace | SolverFace.
Definition kindEqb (a b : faceKind) : bool := match a, b with TopologyFace, TopologyFace | GridFace, GridFace | SolverFace, SolverFace => true | _, _ => false end.

Section ReadBcs.
(** [V]: the dictionary bcVals; [B]: the arrays qBcVals, QBcVals (and intervalAlphas) of a face; [Blk]: a block's grid and arrays *)
Variables V B Blk : Type.
(** bcVals["periodicSpan"], bcVals["periodicAxis"]; None is a KeyError *)
Variable spanOf : V -> option R.
Variable axisOf : V -> option vec.
(** a prep_ function: the arrays, or an exception; [true] marks an AttributeError *)
Variable prep : string -> Blk -> string -> Z -> V -> B + bool.

(** a face as far as it is read or written here *)
Record bface := mkBF { bf_num : Z; bf_kind : faceKind; bf_fam : option string; bf_type : string; bf_span : option R; bf_axis : option vec;
                       bf_rot : option ((Z -> Z -> R) * (Z -> Z -> R)); bf_vals : option B }.
Record entry := mkEntry { e_type : option string; e_vals : option V }.
Definition bcFile := list (string * entry).
Fixpoint look (f : bcFile) (k : string) : option entry := match f with [] => None | (k', e) :: r => if String.eqb k k' then Some e else look r k end.

(** readBcs.py:50-55 *)
Definition noInput : list string := ["b0"; "supersonicExit"; "adiabaticNoSlipWall"; "adiabaticSlipWall"]%string.
Definition inList (s : string) (l : list string) : bool := existsb (String.eqb s) l.
(** the modules searched in turn (readBcs.py:102): the prep_ functions each defines *)
Definition prepInlets : list string := ["constantVelocitySubsonicInlet"; "cubicSplineSubsonicInlet"; "supersonicInlet"; "constantMassFluxSubsonicInlet"; "stagnationSubsonicInlet"]%string.
Definition prepExits : list string := ["constantPressureSubsonicExit"; "supersonicExit"]%string.
Definition prepWalls : list string := ["adiabaticNoSlipWall"; "adiabaticSlipWall"; "adiabaticMovingWall"; "isoTNoSlipWall"; "isoTSlipWall"; "isoTMovingWall"]%string.
(** readBcs.py:102-110: an AttributeError, also one raised inside the function, goes on to the next module *)
Fixpoint tryPrep (mods : list (list string)) (ty : string) (blk : Blk) (fam : string) (num : Z) (v : V) : res B :=
  match mods with
  | [] => Raise ValueError
  | m :: r => if inList ty m then match prep ty blk fam num v with inl b => Ok b | inr true => tryPrep r ty blk fam num v | inr false => Raise OtherError end else tryPrep r ty blk fam num v
  end.
(** the periodicAxis setters (topologyFace.py:105-108, gridFace.py:24-71): the stored axis is normalised (numpy raises or gives NaN for a zero axis: an error here); rotational faces of grids get
    the matrices, built from the axis as given *)
Definition setAxis (f : bface) (a : vec) : res bface :=
  if Req_EM_T (norm a) 0 then Raise OtherError
  else let n := (vx a / norm a, vy a / norm a, vz a / norm a) in
       if (negb (kindEqb (bf_kind f) TopologyFace) && String.prefix "periodicRot" (bf_type f))%bool
       then match periodicMatrices (bf_span f) a with
            | None => Raise OtherError
            | Some m => Ok (mkBF (bf_num f) (bf_kind f) (bf_fam f) (bf_type f) (bf_span f) (Some n) (Some m) (bf_vals f))
            end
       else Ok (mkBF (bf_num f) (bf_kind f) (bf_fam f) (bf_type f) (bf_span f) (Some n) (bf_rot f) (bf_vals f)).
Definition setSpan (f : bface) (s : R) : bface := mkBF (bf_num f) (bf_kind f) (bf_fam f) (bf_type f) (Some s) (bf_axis f) (bf_rot f) (bf_vals f).
Definition setVals (f : bface) (b : B) : bface := mkBF (bf_num f) (bf_kind f) (bf_fam f) (bf_type f) (bf_span f) (bf_axis f) (bf_rot f) (Some b).
(** readBcs.py:46-114, one face *)
Definition readFace (file : bcFile) (justPeriodic : bool) (blk : Blk) (f : bface) : res bface :=
  match bf_fam f with
  | None => if inList (bf_type f) noInput then Ok f else Raise ValueError
  | Some fam =>
    match look file fam with
    | None => Raise KeyError
    | Some e =>
      match e_type e with
      | None => Raise KeyError
      | Some ty =>
        if (negb (String.eqb ty (bf_type f)) && negb (String.prefix "periodic" ty && String.prefix ty (bf_type f)))%bool then Raise KeyError
        else match e_vals e with
             | None => Ok f
             | Some v =>
               if String.prefix "periodic" (bf_type f)
               then match spanOf v with None => Raise KeyError | Some s => match axisOf v with None => Raise KeyError | Some a => setAxis (setSpan f s) a end end
               else if justPeriodic then Ok f
               else if negb (kindEqb (bf_kind f) SolverFace) then Ok f
               else match tryPrep [prepInlets; prepExits; prepWalls] (bf_type f) blk fam (bf_num f) v with Raise x => Raise x | Ok b => Ok (setVals f b) end
             end
      end
    end
  end.
Fixpoint mapR {A C} (g : A -> res C) (l : list A) : res (list C) :=
  match l with [] => Ok [] | x :: r => match g x with Raise e => Raise e | Ok y => match mapR g r with Raise e => Raise e | Ok ys => Ok (y :: ys) end end end.
(** readBcs.py:32-114 *)
Definition readBcs (file : option bcFile) (justPeriodic : bool) (mb : list (Blk * list bface)) : res (list (Blk * list bface)) :=
  match file with
  | None => Ok mb
  | Some fl => mapR (fun '(blk, fs) => match mapR (readFace fl justPeriodic blk) fs with Raise e => Raise e | Ok fs' => Ok (blk, fs') end) mb
  end.
End ReadBcs.

(** ** solverFace._setBcFunc (solverFace.py:106-118); the functions bound in bindingsBoundaryConditions.cpp:13-87 *)
Inductive bcFunc := NullFunc | Bound (module name : string).
Definition boundFuncs : list (string * list string) :=
  [("inlets", ["constantVelocitySubsonicInlet"; "cubicSplineSubsonicInlet"; "supersonicInlet"; "constantMassFluxSubsonicInlet"; "stagnationSubsonicInlet"]);
   ("exits", ["constantPressureSubsonicExit"; "supersonicExit"]);
   ("walls", ["adiabaticNoSlipWall"; "adiabaticSlipWall"; "adiabaticMovingWall"; "isoTNoSlipWall"; "isoTSlipWall"; "isoTMovingWall"]);
   ("periodics", ["periodicRotHigh"; "periodicRotLow"])]%string.
Definition setBcFunc (ty : string) : res bcFunc :=
  if (String.eqb ty "b0" || String.prefix "periodicTrans" ty)%bool then Ok NullFunc
  else match find (fun m => inList ty (snd m)) boundFuncs with Some m => Ok (Bound (fst m) ty) | None => Raise KeyError end.
