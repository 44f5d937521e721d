(** Model of src/peregrinepy/multiBlock/{topologyFace,topologyBlock,topology}.py.
    Definitions only.  Python exceptions are [None]. *)
From Coq Require Import ZArith String Ascii List Bool.
Import ListNotations.
Open Scope Z_scope.

(** [int(ch)] on a single ASCII character, as used at topologyFace.py:126,142.
    Simplification: non-ASCII digits, which Python's [int] also accepts, are not modelled. *)
Definition int_of_char (c : ascii) : option Z :=
  let n := Z.of_nat (nat_of_ascii c) in
  if (48 <=? n) && (n <=? 57) then Some (n - 48) else None.

(** [str(n)] for the one-digit numbers 0..9 that the code produces
    (topologyFace.py:146,148,150). *)
Definition char_of_int (n : Z) : ascii := ascii_of_nat (Z.to_nat (n + 48)).

(** Indexing [orientation[i]] and converting it: IndexError / ValueError = None. *)
Definition orient_digit (o : string) (i : nat) : option Z :=
  match String.get i o with
  | Some c => int_of_char c
  | None => None
  end.

(** faceToOrientIndexMapping, topologyFace.py:118 (also solverFace.py:324). KeyError = None. *)
Definition faceToOrientIndex (nface : Z) : option nat :=
  match nface with
  | 1 => Some 0%nat | 2 => Some 0%nat
  | 3 => Some 1%nat | 4 => Some 1%nat
  | 5 => Some 2%nat | 6 => Some 2%nat
  | _ => None
  end.

(** orientToSmallFaceMapping, topologyFace.py:121. *)
Definition orientToSmallFace (d : Z) : option Z :=
  match d with
  | 1 => Some 2 | 2 => Some 4 | 3 => Some 6 | 4 => Some 1 | 5 => Some 3 | 6 => Some 5
  | _ => None
  end.

(** orientToLargeFaceMapping, topologyFace.py:124. *)
Definition orientToLargeFace (d : Z) : option Z :=
  match d with
  | 1 => Some 1 | 2 => Some 3 | 3 => Some 5 | 4 => Some 2 | 5 => Some 4 | 6 => Some 6
  | _ => None
  end.

(** neighborNface, topologyFace.py:110-133. *)
Definition neighborNface (nface : Z) (orientation : string) : option Z :=
  match faceToOrientIndex nface with
  | None => None
  | Some ix =>
    match orient_digit orientation ix with
    | None => None
    | Some direction =>
      if existsb (Z.eqb nface) [1; 3; 5] then orientToSmallFace direction
      else if existsb (Z.eqb nface) [2; 4; 6] then orientToLargeFace direction
      else None
    end
  end.

(** dirToOrientIndexMapping, topologyFace.py:139. *)
Definition dirToOrientIndex (d : Z) : option nat :=
  match d with
  | 1 => Some 0%nat | 2 => Some 1%nat | 3 => Some 2%nat
  | 4 => Some 0%nat | 5 => Some 1%nat | 6 => Some 2%nat
  | _ => None
  end.

(** A list store [l[i] = v] on a three element list (topologyFace.py:140-150). *)
Fixpoint set_nth {A} (l : list A) (i : nat) (v : A) : list A :=
  match l, i with
  | [], _ => []
  | _ :: t, O => v :: t
  | h :: t, S i' => h :: set_nth t i' v
  end.

(** Loop body of neighborOrientation, topologyFace.py:141-150. *)
Definition nOrient_step (orientation : string) (acc : option (list (option ascii))) (i : nat)
  : option (list (option ascii)) :=
  match acc with
  | None => None
  | Some no =>
    match orient_digit orientation i with
    | None => None
    | Some n =>
      match dirToOrientIndex n with
      | None => None
      | Some indx =>
        if Nat.eqb indx i then Some (set_nth no indx (Some (char_of_int n)))
        else if existsb (Z.eqb n) [1; 2; 3] then
          Some (set_nth no indx (Some (char_of_int (Z.of_nat i + 1))))
        else if existsb (Z.eqb n) [4; 5; 6] then
          Some (set_nth no indx (Some (char_of_int (Z.of_nat i + 4))))
        else Some no
      end
    end
  end.

(** neighborOrientation, topologyFace.py:135-156: the final assert rejects a list that still
    contains None; otherwise the characters are joined. *)
Definition neighborOrientation (orientation : string) : option string :=
  match fold_left (nOrient_step orientation) [0%nat; 1%nat; 2%nat]
                  (Some [None; None; None]) with
  | Some [Some a; Some b; Some c] => Some (String a (String b (String c EmptyString)))
  | _ => None
  end.

(** validBcTypes, topologyFace.py:49-72. *)
Definition validBcTypes : list string :=
  ["b0"; "periodicTransLow"; "periodicTransHigh"; "periodicRotLow"; "periodicRotHigh";
   "constantVelocitySubsonicInlet"; "supersonicInlet"; "constantMassFluxSubsonicInlet";
   "cubicSplineSubsonicInlet"; "stagnationSubsonicInlet";
   "constantPressureSubsonicExit"; "supersonicExit";
   "adiabaticNoSlipWall"; "adiabaticSlipWall"; "adiabaticMovingWall";
   "isoTNoSlipWall"; "isoTSlipWall"; "isoTMovingWall"]%string.

(** A dynamically typed Python value, as far as the setters distinguish them. *)
Inductive pyval :=
| PNone | PInt (z : Z) | PStr (s : string) | PFloat | POther.

(** The attributes of a topologyFace (topologyFace.py:7-17); periodicSpan/periodicAxis are
    modelled with the grid face. *)
Record face := mkFace {
  nface : Z;
  bcFam : option string;
  bcType : string;
  neighbor : option Z;
  orientation : option string }.

(** topologyFace.__init__, topologyFace.py:7-14. *)
Definition newFace (n : Z) : option face :=
  if (1 <=? n) && (n <=? 6) then Some (mkFace n None "adiabaticNoSlipWall" None None) else None.

(** Setters.  [None] = the assignment raises (and leaves the object as it was). *)
(* topologyFace.py:23-27.  Simplification: [bool], a subclass of [int], is not modelled. *)
Definition set_nface (f : face) (v : pyval) : option face :=
  match v with
  | PInt z => if (1 <=? z) && (z <=? 6)
              then Some (mkFace z (bcFam f) (bcType f) (neighbor f) (orientation f)) else None
  | _ => None
  end.

(* topologyFace.py:33-38 *)
Definition set_bcFam (f : face) (v : pyval) : option face :=
  match v with
  | PNone => Some (mkFace (nface f) None (bcType f) (neighbor f) (orientation f))
  | PStr s => Some (mkFace (nface f) (Some s) (bcType f) (neighbor f) (orientation f))
  | _ => None
  end.

(* topologyFace.py:44-76 ([None] passes the type test but is not a member of the tuple) *)
Definition set_bcType (f : face) (v : pyval) : option face :=
  match v with
  | PStr s => if existsb (String.eqb s) validBcTypes
              then Some (mkFace (nface f) (bcFam f) s (neighbor f) (orientation f)) else None
  | _ => None
  end.

(* topologyFace.py:82-87 *)
Definition set_neighbor (f : face) (v : pyval) : option face :=
  match v with
  | PNone => Some (mkFace (nface f) (bcFam f) (bcType f) None (orientation f))
  | PInt z => Some (mkFace (nface f) (bcFam f) (bcType f) (Some z) (orientation f))
  | _ => None
  end.

(* topologyFace.py:93-98: only the type is checked *)
Definition set_orientation (f : face) (v : pyval) : option face :=
  match v with
  | PNone => Some (mkFace (nface f) (bcFam f) (bcType f) (neighbor f) None)
  | PStr s => Some (mkFace (nface f) (bcFam f) (bcType f) (neighbor f) (Some s))
  | _ => None
  end.

Inductive setter := SNface | SBcFam | SBcType | SNeighbor | SOrientation.

Definition apply_setter (s : setter) : face -> pyval -> option face :=
  match s with
  | SNface => set_nface | SBcFam => set_bcFam | SBcType => set_bcType
  | SNeighbor => set_neighbor | SOrientation => set_orientation
  end.

(** A history of assignments on one face object; an assignment that raises leaves it unchanged. *)
Definition run_setter (f : face) (op : setter * pyval) : face :=
  match apply_setter (fst op) f (snd op) with Some f' => f' | None => f end.

(** Blocks and multi-blocks (topologyBlock.py:11-21, topology.py:5-44).  A multi-block is the
    list of its blocks; of a block only the number and the faces matter here. *)
Record block := mkBlock { nblki : Z; faces : list face }.

(* topologyBlock.py:11-17 *)
Definition newBlock (n : Z) : block :=
  mkBlock n (map (fun k => mkFace k None "adiabaticNoSlipWall" None None) [1;2;3;4;5;6]).

(* topologyBlock.py:19-21 *)
Definition getFace (b : block) (n : Z) : option face :=
  if (1 <=? n) && (n <=? 6) then nth_error (faces b) (Z.to_nat (n - 1)) else None.

(** Python list indexing with negative wrap-around; IndexError = None. *)
Definition py_index {A} (l : list A) (i : Z) : option A :=
  let n := Z.of_nat (length l) in
  if (0 <=? i) && (i <? n) then nth_error l (Z.to_nat i)
  else if (- n <=? i) && (i <? 0) then nth_error l (Z.to_nat (i + n))
  else None.

(** Outcome of getBlock: raises IndexError / returns a block / falls through and returns
    Python's [None]. *)
Inductive gb_result := GB_IndexError | GB_Block (b : block) | GB_None.

(* topology.py:28-34 *)
Definition getBlock (mb : list block) (n : Z) : gb_result :=
  match py_index mb n with
  | None => GB_IndexError
  | Some b =>
    if nblki b =? n then GB_Block b
    else match find (fun b => nblki b =? n) mb with
         | Some b => GB_Block b
         | None => GB_None
         end
  end.

(* topology.py:11-16 *)
Definition newTopology (nblks : nat) : list block :=
  map (fun i => newBlock (Z.of_nat i)) (seq 0 nblks).

(* topology.py:36-44; self[0] raises IndexError on an empty list *)
Definition appendBlock (mb : list block) : option (list block) :=
  match mb with
  | [] => None
  | _ =>
    let maxNblki := fold_left (fun m b => if m <? nblki b then nblki b else m) mb 0 in
    Some (mb ++ [newBlock (maxNblki + 1)])
  end.

(* topology.py:24-26 *)
Definition blockList (mb : list block) : list Z := map nblki mb.

(** A history of [k] successive appendBlock calls (topology.py:36-44). *)
Fixpoint appends (k : nat) (mb : list block) : option (list block) :=
  match k with
  | O => Some mb
  | S k' => match appendBlock mb with Some mb' => appends k' mb' | None => None end
  end.

