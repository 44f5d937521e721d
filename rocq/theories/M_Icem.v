(** Model of utilities/icem2pg.py after tokenising: boundary tags, periodic pairs, connectivity and the two coordinate formats' file names.  Exceptions are [None].
    Definitions only.  Not modelled: finding the section headers, the splitting of lines into tokens, reading the coordinates. *)
From Coq Require Import ZArith String Ascii List Bool.
From Verif Require Import M_Config M_Topology.
Import ListNotations.
Open Scope string_scope.

(** faceMapping and orientationMapping (icem2pg.py:137-145) *)
Definition faceMapping : list (string * Z) := [("small_i", 1%Z); ("large_i", 2%Z); ("small_j", 3%Z); ("large_j", 4%Z); ("small_k", 5%Z); ("large_k", 6%Z)].
Definition orientationMapping : list (string * Z) := [("i", 1%Z); ("j", 2%Z); ("k", 3%Z); ("-i", 4%Z); ("-j", 5%Z); ("-k", 6%Z)].
(** validBcTypes of this utility (icem2pg.py:150-160) *)
Definition icemTypes : list string := ["constantVelocitySubsonicInlet"; "constantPressureSubsonicExit"; "adiabaticNoSlipWall"; "adiabaticSlipWall"; "adiabaticMovingWall"; "isoTMovingWall"].
(** t.replace("-", "") *)
Fixpoint noDash (t : string) : string := match t with EmptyString => EmptyString | String c r => if Ascii.eqb c "-" then noDash r else String c (noDash r) end.
(** t[-1] *)
Fixpoint lastChar (t : string) : string := match t with EmptyString => EmptyString | String c EmptyString => String c EmptyString | String _ r => lastChar r end.
(** the other sense of a direction token (icem2pg.py:382-385 and alike) *)
Definition otherSense (t : string) : string := if prefix "-" t then noDash t else "-" ++ t.
(** the entry of the orientation dict for a pair of direction tokens (icem2pg.py:365-394; the same text at icem2pg.py:258-288) *)
Definition orientEntry (face : Z) (curr adjc : string) : option (string * string) :=
  let faceNum := (if prefix "-" curr then "small_" else "large_") ++ lastChar curr in
  match lookup faceNum faceMapping with
  | None => None
  | Some m =>
    let adjc' := if (m =? face)%Z then (if prefix "-" curr then adjc else otherSense adjc)
                 else if prefix "-" curr then otherSense adjc else adjc in
    Some (if prefix "-" curr then noDash curr else curr, adjc')
  end.
Fixpoint orientDict (face : Z) (cs adjs : list string) (d : list (string * string)) : option (list (string * string)) :=
  match cs, adjs with
  | c :: cs', a :: as' => match orientEntry face c a with None => None | Some (k, v) => orientDict face cs' as' (assign k v d) end
  | _, _ => Some d
  end.
(** the three digits (icem2pg.py:399-404; icem2pg.py:292-297) *)
Definition orientDigit (d : list (string * string)) (k : string) : option Z := match lookup k d with None => None | Some v => lookup v orientationMapping end.
Definition orientString (d : list (string * string)) : option string :=
  match orientDigit d "i", orientDigit d "j", orientDigit d "k" with
  | Some a, Some b, Some c => Some (String (char_of_int a) (String (char_of_int b) (String (char_of_int c) "")))
  | _, _, _ => None end.
(** which face a range of points lies on: the first direction of no extent decides (icem2pg.py:194-205; icem2pg.py:232-243) *)
Fixpoint rangeFace (l : list (string * string * string)) : option Z :=
  match l with
  | [] => None
  | (mini, maxi, direc) :: r => if String.eqb mini maxi then lookup ((if String.eqb mini "1" then "small_" else "large_") ++ direc) faceMapping else rangeFace r
  end.
(** assignment of face n of a block (topologyBlock.py:19-21): [None] if there is no such face or the setter raises *)
Definition onFace (n : Z) (g : face -> option face) (fs : list face) : option (list face) :=
  if ((1 <=? n) && (n <=? 6))%Z then match nth_error fs (Z.to_nat (n - 1)) with None => None
    | Some f => match g f with None => None | Some f' => Some (set_nth fs (Z.to_nat (n - 1)) f') end end
  else None.
Definition bind {A B} (x : option A) (f : A -> option B) : option B := match x with None => None | Some a => f a end.
(** a line of a boundary section (icem2pg.py:182-211): tag, kind, three minima, three maxima.  [fams] is bcFam.yaml: label to bcType (KeyError: no entry) *)
Definition bcLine (fams : list (string * string)) (line : list string) (fs : list face) : option (list face) :=
  match line with
  | tag :: kind :: r =>
    if String.eqb kind "f" then
      if String.eqb tag "DEFAULT_SUBFACE" then Some fs else
      match lookup tag fams with
      | None => None
      | Some t => match r with
        | m1 :: m2 :: m3 :: x1 :: x2 :: x3 :: _ =>
          bind (rangeFace [(m1, x1, "i"); (m2, x2, "j"); (m3, x3, "k")]) (fun n =>
          bind (onFace n (fun f => set_bcFam f (PStr tag)) fs) (fun fs' =>
          if existsb (String.eqb t) icemTypes then onFace n (fun f => set_bcType f (PStr t)) fs' else None))
        | _ => None
        end
      end
    else Some fs
  | _ => None
  end.
Fixpoint bcSection (fams : list (string * string)) (lines : list (list string)) (fs : list face) : option (list face) :=
  match lines with [] => Some fs | l :: r => bind (bcLine fams l fs) (bcSection fams r) end.

Section Numbers.
(** int(token.split(".")[-1]) *)
Variable domain : string -> option Z.
(** zip(mins, maxs, directions) of a connectivity line (icem2pg.py:330-333): tokens 6-8, 9-11 and 2-4 *)
Definition rangeOf (l : list string) : option (list (string * string * string)) :=
  match l with
  | _ :: _ :: d1 :: d2 :: d3 :: _ :: m1 :: m2 :: m3 :: x1 :: x2 :: x3 :: _ => Some [(m1, x1, noDash d1); (m2, x2, noDash d2); (m3, x3, noDash d3)]
  | _ => None
  end.
Definition dirsOf (l : list string) : option (list string) := match l with _ :: _ :: d1 :: d2 :: d3 :: _ => Some [d1; d2; d3] | _ => None end.
(** every direction of no extent must give the expected face (icem2pg.py:333-345) *)
Fixpoint checkFace (want : Z) (l : list (string * string * string)) : option unit :=
  match l with
  | [] => Some tt
  | (mini, maxi, direc) :: r =>
    if String.eqb mini maxi
    then match lookup ((if String.eqb mini "1" then "small_" else "large_") ++ direc) faceMapping with
         | None => None | Some m => if (m =? want)%Z then checkFace want r else None end
    else checkFace want r
  end.
(** one pair of lines of a connectivity section (icem2pg.py:321-404) *)
Definition connPair (want : Z) (this adj : list string) (fs : list face) : option (list face) :=
  bind (rangeOf this) (fun rg => bind (checkFace want rg) (fun _ =>
  bind (nth_error this 5) (fun kind => if negb (String.eqb kind "f") then None else
  bind (nth_error adj 1) (fun dom => bind (domain dom) (fun nb =>
  bind (dirsOf this) (fun cs => bind (dirsOf adj) (fun adjs =>
  bind (orientDict want cs adjs []) (fun d =>
  bind (onFace want (fun f => set_neighbor f (PInt (nb - 1))) fs) (fun fs1 =>
  bind (orientString d) (fun o => onFace want (fun f => set_orientation f (PStr o)) fs1)))))))))).
(** icem2pg.py:315-323: the faces of type b0, in order, take the pairs of lines in order *)
Fixpoint connFaces (want : list Z) (lines : list (list string)) (fs : list face) : option (list face) :=
  match want with
  | [] => Some fs
  | n :: r => match lines with this :: adj :: ls => bind (connPair n this adj fs) (connFaces r ls) | _ => None end
  end.
Definition internalFaces (fs : list face) : list Z := map nface (filter (fun f => String.eqb (bcType f) "b0") fs).
Definition connSection (lines : list (list string)) (fs : list face) : option (list face) := connFaces (internalFaces fs) lines fs.
(** a periodic section (icem2pg.py:219-303); [self] is the block's number *)
Definition perSection (self : Z) (this adj : list string) (fs : list face) : option (list face) :=
  match this with
  | [] => Some fs
  | _ =>
    bind (nth_error adj 1) (fun dom => bind (domain dom) (fun nb =>
    bind (rangeOf this) (fun rg => bind (rangeFace rg) (fun n =>
    bind (nth_error this 5) (fun kind => if negb (String.eqb kind "f") then None else
    bind (dirsOf this) (fun cs => bind (dirsOf adj) (fun adjs =>
    bind (if list_eq_dec string_dec cs adjs then Some [("i", "i"); ("j", "j"); ("k", "k")] else orientDict n cs adjs []) (fun d =>
    bind (onFace n (fun f => set_neighbor f (PInt (nb - 1))) fs) (fun fs1 =>
    bind (onFace n (fun f => set_bcType f (PStr "b1")) fs1) (fun fs2 =>
    bind (orientString d) (fun o => bind (onFace n (fun f => set_orientation f (PStr o)) fs2) (fun fs3 =>
    if (nb - 1 =? self)%Z then
      let opp := (if (n mod 2 =? 0) then n - 1 else n + 1)%Z in
      bind (onFace opp (fun f => set_neighbor f (PInt self)) fs3) (fun fs4 =>
      bind (onFace opp (fun f => set_bcType f (PStr "b1")) fs4) (fun fs5 => onFace opp (fun f => set_orientation f (PStr o)) fs5))
    else Some fs3))))))))))))
  end.
(** the faces of a new block, all set to b0 (icem2pg.py:132-135) *)
Definition icemFaces : list face := map (fun n => mkFace n None "b0" None None) [1; 2; 3; 4; 5; 6]%Z.
(** one block: its boundary lines, its periodic pair (or none), its connectivity lines (icem2pg.py:166-404) *)
Definition icemBlock (self : Z) (fams : list (string * string)) (bc : list (list string)) (per : option (list string * list string)) (conn : list (list string)) : option (list face) :=
  bind (bcSection fams bc icemFaces) (fun fs => bind (match per with None => Some fs | Some (t, a) => perSection self t a fs end) (connSection conn)).
End Numbers.
(** the Multi-Block-Info format: the files opened for the blocks 0 .. n-1, n being how many names start with info.dom (icem2pg.py:107-117); the first missing one raises *)
Definition mbiOpen (showN : nat -> string) (listing : list string) : option (list string) :=
  let n := List.length (filter (prefix "info.dom") listing) in
  let names := map (fun b => "info.dom" ++ showN b) (seq 0 n) in
  if forallb (fun f => existsb (String.eqb f) listing) names then Some names else None.
