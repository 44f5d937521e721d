(** Model of utilities/gridPro2pg.py after tokenising: labels, connectivity and the choice of periodic sides.  Exceptions are [None].
    Definitions only.  [toInt] is int() of a token.  Not modelled: opening the files, skipping comment lines, the coordinate formats. *)
From Coq Require Import Reals ZArith String Ascii List Bool.
From Verif Require Import M_Config M_Topology M_Cut M_Verify M_Species.
Import ListNotations.
Open Scope string_scope.

(** str.strip(chars): drops characters of the set from both ends *)
Fixpoint inChars (c : ascii) (cs : string) : bool := match cs with EmptyString => false | String d r => (Ascii.eqb c d || inChars c r)%bool end.
Fixpoint lstrip (cs s : string) : string := match s with EmptyString => EmptyString | String c r => if inChars c cs then lstrip cs r else s end.
Fixpoint rstrip (cs s : string) : string :=
  match s with EmptyString => EmptyString | String c r => match rstrip cs r with EmptyString => if inChars c cs then EmptyString else String c EmptyString | r' => String c r' end end.
Definition strip (cs s : string) : string := rstrip cs (lstrip cs s).
(** gpSurfaceToPgBcType with its KeyError branch (gridPro2pg.py:103-107, 147-150) *)
Definition surfaceName (label : string) : string :=
  match lookup label [("pdc:INTERBLK", "b0"); ("pdc:WALL", "adiabaticNoSlipWall"); ("pdc:user8", "adiabaticSlipWall")] with Some t => t | None => strip "pdc:" label end.

Section Tokens.
Variable toInt : string -> option Z.
(** blkPtys (gridPro2pg.py:131): tokens 4, 6, ..., 14 of a block's property line *)
Definition ptyIds (line : list string) : option (list string) :=
  match nth_error line 4, nth_error line 6, nth_error line 8, nth_error line 10, nth_error line 12, nth_error line 14 with
  | Some a, Some b, Some c, Some d, Some e, Some f => Some [a; b; c; d; e; f] | _, _, _, _, _, _ => None end.
(** presentSurfaces (gridPro2pg.py:133-135); None if a token is no integer *)
Fixpoint present (ids seen : list string) : option (list string) :=
  match ids with
  | [] => Some seen
  | i :: r => match toInt i with None => None
              | Some z => present r (if ((0 <? z)%Z && negb (existsb (String.eqb i) seen))%bool then seen ++ [i] else seen)%list end
  end.
(** surfaceToBc (gridPro2pg.py:143-150): from the tokens of the 2D property lines, parentheses removed; later lines win *)
Fixpoint surfaceToBc (props : list (list string)) (seen : list string) (d : list (string * string)) : option (list (string * string)) :=
  match props with
  | [] => Some d
  | line :: r => match nth_error line 0 with
    | None => None
    | Some id => if existsb (String.eqb id) seen
                 then match nth_error line 2 with None => None | Some label => surfaceToBc r seen (assign id (surfaceName label) d) end
                 else surfaceToBc r seen d
    end
  end.
Fixpoint omapM {A B} (f : A -> option B) (l : list A) : option (list B) :=
  match l with [] => Some [] | x :: r => match f x with None => None | Some y => match omapM f r with None => None | Some ys => Some (y :: ys) end end end.
(** line[p] = x *)
Fixpoint setNth (p : nat) (x : string) (l : list string) : option (list string) :=
  match p, l with _, [] => None | O, _ :: r => Some (x :: r) | S p', y :: r => match setNth p' x r with None => None | Some r' => Some (y :: r') end end.
(** gridPro2pg.py:171-176: the names replace tokens 2, 6, ..., 22; name.split()[0] fails for an empty name; line[2:-1] *)
Fixpoint putNames (j : nat) (names line : list string) : option (list string) :=
  match names with
  | [] => Some line
  | n :: r => if String.eqb n "" then None else match setNth (2 + j * 4) n line with None => None | Some l' => putNames (S j) r l' end
  end.
Definition connRow (names line : list string) : option (list string) :=
  match putNames 0 names line with None => None | Some l => Some (removelast (skipn 2 l)) end.

(** an entry of bcFams.yaml: bcType, and bcVals' periodicSpan and periodicAxis if given *)
Record gpFam := mkFam { fmType : string; fmVals : option (R * (R * R * R)) }.
Record gpFace := mkGp { gpFam' : option string; gpType : string; gpNbr : option Z; gpOri : option string; gpVals : option (R * (R * R * R)) }.
Definition validType (t : string) : bool := existsb (String.eqb t) validBcTypes.
(** gridPro2pg.py:180-203 for face n (1..6) of a block with row [temp]; assigning an invalid bcType is an AssertionError (topologyFace.py:41-72) *)
Definition gpFaceOf (fams : list (string * gpFam)) (temp : list string) (n : nat) : option gpFace :=
  let data := firstn 4 (skipn ((n - 1) * 4) temp) in
  match nth_error data 0, nth_error data 2, nth_error data 3 with
  | Some name, Some nb, Some ori =>
    match (match lookup name fams with
           | Some f => if validType (fmType f) then Some (Some name, fmType f, None) else None
           | None => if String.eqb name "PERIODIC"
                     then match find (fun kf => prefix "periodic" (fst kf)) fams with
                          | None => None
                          | Some (key, f) => let t := fmType f ++ "Low" in
                                             if validType t then match fmVals f with None => None | Some v => Some (Some key, t, Some v) end else None
                          end
                     else if validType name then Some (None, name, None) else None
           end), toInt nb with
    | Some (fam, t, v), Some m => Some (mkGp fam t (if (m =? 0)%Z then None else Some (m - 1)%Z) (if contains "0" ori then None else Some ori) v)
    | _, _ => None
    end
  | _, _, _ => None
  end.
(** gridPro2pg.py:114-203: all faces of all blocks *)
Definition gridPro (fams : list (string * gpFam)) (ptys : list (list string)) (props : list (list string)) (conns : list (list string)) : option (list (list gpFace)) :=
  match omapM ptyIds ptys with
  | None => None
  | Some ids => match present (concat ids) [] with
    | None => None
    | Some seen => match surfaceToBc props seen [] with
      | None => None
      | Some d => match omapM (omapM (fun i => lookup i d)) ids with
        | None => None
        | Some names => if negb (Nat.eqb (List.length names) (List.length conns)) then None else
            match omapM (fun nc => connRow (fst nc) (snd nc)) (combine names conns) with
            | None => None
            | Some rows => omapM (fun row => omapM (gpFaceOf fams row) [1; 2; 3; 4; 5; 6]%nat) rows
            end
        end
      end
    end
  end.
End Tokens.

(** ** periodic sides (gridPro2pg.py:249-286) *)
Open Scope R_scope.
Definition p3 := (R * R * R)%type.
Definition add3 (a b : p3) : p3 := let '(x, y, z) := a in let '(u, v, w) := b in (x + u, y + v, z + w).
Definition scale3 (s : R) (a : p3) : p3 := let '(x, y, z) := a in (s * x, s * y, s * z).
(** np.allclose(a, b): |a - b| <= 1e-8 + 1e-5 |b| in every component *)
Definition close1 (a b : R) : bool := if Rle_dec (Rabs (a - b)) (/ 10 ^ 8 + / 10 ^ 5 * Rabs b) then true else false.
Definition allclose (a b : p3) : bool := let '(x, y, z) := a in let '(u, v, w) := b in (close1 x u && close1 y v && close1 z w)%bool.
(** np.mean of the three coordinate arrays of a face *)
Definition faceSum (f : farr) : p3 :=
  fold_left (fun s u => fold_left (fun s v => add3 s (aget f (Z.of_nat u) (Z.of_nat v))) (seq 0 (Z.to_nat (snd (ash f)))) s) (seq 0 (Z.to_nat (fst (ash f)))) (0, 0, 0).
Definition faceMean (f : farr) : p3 := scale3 (/ IZR (fst (ash f) * snd (ash f))) (faceSum f).
(** the stored axis: axis / norm(axis) (topologyFace.py:103-106) *)
Definition unit3 (a : p3) : p3 := let '(x, y, z) := a in scale3 (/ sqrt (x * x + y * y + z * z)) a.
(** the bcType a periodic face ends up with, from the two face centres *)
Definition sideOf (t : string) (span : R) (axis mine theirs : p3) : option string :=
  if String.eqb t "periodicTransLow" then
    let d := scale3 span (unit3 axis) in
    if allclose (add3 mine d) theirs then Some "periodicTransLow"%string
    else if allclose (add3 mine (scale3 (-1) d)) theirs then Some "periodicTransHigh"%string else None
  else None (* the rotational branch reads face.array, which a grid's faces (topologyFace) do not have; anything else is the ValueError *).
(** one face of block b, its neighbour block given *)
Definition gpSide (b nb : gblock) (n : Z) (f : gpFace) : option string :=
  if prefix "periodic" (gpType f) then
    match gpVals f, gpOri f with
    | Some (span, axis), Some o => match neighborNface n o with
      | None => None
      | Some n2 => match extractFace b n, extractFace nb n2 with
        | Some A, Some B => sideOf (gpType f) span axis (faceMean A) (faceMean B)
        | _, _ => None
        end
      end
    | _, _ => None
    end
  else Some (gpType f).
