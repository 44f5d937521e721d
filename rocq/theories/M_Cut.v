(** Model of utilities/cutGrid.py: cutBlock, cutPath, and the cut indices of performCutOperations.
    Definitions only.  Python exceptions (failed asserts, KeyError, AttributeError) are [None].

    Simplifications:
    - a grid block is its number, its three point counts, its coordinate arrays (functions of
      three indices, meaningful inside the counts) and its six faces;
    - Python mutates the blocks through references; here a multi-block is a list and [updBlk]
      rewrites the block with a given number (numbers are unique in a grid multi-block, C04);
    - the list returned by getBlock for a missing number ([None] in Python, whose attributes then
      raise) is an exception;
    - the lists incompleteBlocks / foundFaces, consumed by findInteriorNeighbor, are modelled as
      the list of (block number, six flags) pairs. *)
From Coq Require Import ZArith String Ascii List Bool Reals.
From Verif Require Import M_Topology.
Import ListNotations.
Open Scope Z_scope.

(** topologyFace.py:7-17: the connectivity attributes plus the periodic data. *)
Record gface := mkGF {
  topo : face;
  span : option R;
  paxis : option (R * R * R) }.

(** gridBlock.py:18-39 (point counts and coordinates), topologyBlock.py:11-17 (faces). *)
Record gblock := mkGB {
  gn : Z;
  gshape : Z * Z * Z;
  gx : Z -> Z -> Z -> R;
  gy : Z -> Z -> Z -> R;
  gz : Z -> Z -> Z -> R;
  gfaces : list gface }.

(** A new face: topologyFace.py:7-17. *)
Definition freshFace (n : Z) : gface :=
  mkGF (mkFace n None "adiabaticNoSlipWall" None None) None None.

(** A new grid block: gridBlock.py:18-35. *)
Definition freshBlock (n : Z) : gblock :=
  mkGB n (0, 0, 0) (fun _ _ _ => 0%R) (fun _ _ _ => 0%R) (fun _ _ _ => 0%R)
       (map freshFace [1;2;3;4;5;6]).

(** topology.py:28-34, on grid blocks.  IndexError and a missing block are both [None]. *)
Definition getBlk (mb : list gblock) (n : Z) : option gblock :=
  match py_index mb n with
  | None => None
  | Some b => if gn b =? n then Some b else find (fun b => gn b =? n) mb
  end.

(** topology.py:36-44; [mb[-1]] is then the appended block (cutGrid.py:156-157). *)
Definition freshNumber (mb : list gblock) : Z :=
  fold_left (fun m b => if m <? gn b then gn b else m) mb 0 + 1.

(** topologyBlock.py:19-21. *)
Definition faceOf (b : gblock) (n : Z) : option gface :=
  if (1 <=? n) && (n <=? 6) then nth_error (gfaces b) (Z.to_nat (n - 1)) else None.

(** In-place mutation of the block numbered [n]. *)
Definition updBlk (n : Z) (f : gblock -> gblock) (mb : list gblock) : list gblock :=
  map (fun b => if gn b =? n then f b else b) mb.

(** In-place mutation of face [k] of a block. *)
Definition updFace (k : Z) (f : gface -> gface) (b : gblock) : gblock :=
  mkGB (gn b) (gshape b) (gx b) (gy b) (gz b)
    (match nth_error (gfaces b) (Z.to_nat (k - 1)) with
     | Some g => set_nth (gfaces b) (Z.to_nat (k - 1)) (f g)
     | None => gfaces b
     end).

(** Attribute assignments; the values assigned in cutGrid.py are always of the right type. *)
Definition withNeighbor (v : option Z) (g : gface) : gface :=
  let t := topo g in
  mkGF (mkFace (nface t) (bcFam t) (bcType t) v (orientation t)) (span g) (paxis g).

(** cutGrid.py:201-207 (one of the two faces of the cut): neighbor, orientation, bcType, bcFam. *)
Definition asInterior (v : Z) (g : gface) : gface :=
  mkGF (mkFace (nface (topo g)) None "b0" (Some v) (Some "123"%string)) (span g) (paxis g).

(** [bcType.startswith("periodic")], cutGrid.py:179,221. *)
Definition isPeriodic (s : string) : bool := String.prefix "periodic" s.

(** topologyFace.py:105-108: the setter normalises; [None / norm(None)] raises. *)
Definition normalise (v : R * R * R) : R * R * R :=
  let '(a, b, c) := v in
  let m := sqrt (a * a + b * b + c * c) in ((a / m)%R, (b / m)%R, (c / m)%R).

(** cutGrid.py:179-181 and 221-223: periodic data are copied only from periodic faces. *)
Definition copyPeriodic (src dst : gface) : option gface :=
  if isPeriodic (bcType (topo src)) then
    match paxis src with
    | None => None
    | Some v => Some (mkGF (topo dst) (span src) (Some (normalise v)))
    end
  else Some dst.

(** cutGrid.py:173-181: everything is copied to the new block's far face. *)
Definition copyFar (src dst : gface) : option gface :=
  let s := topo src in
  copyPeriodic src
    (mkGF (mkFace (nface (topo dst)) (bcFam s) (bcType s) (neighbor s) (orientation s))
          (span dst) (paxis dst)).

(** cutGrid.py:214-227: a lateral face; the neighbour is set only when the face is a boundary. *)
Definition copySplit (src dst : gface) : option gface :=
  let s := topo src in
  copyPeriodic src
    (mkGF (mkFace (nface (topo dst)) (bcFam s) (bcType s)
             (match neighbor s with None => None | Some _ => neighbor (topo dst) end)
             (orientation s))
          (span dst) (paxis dst)).

(** cutGrid.py:163-171: (oldCutNface, newCutNface). *)
Definition cutFaces (ax : string) : option (Z * Z) :=
  if String.eqb ax "i" then Some (2, 1)
  else if String.eqb ax "j" then Some (4, 3)
  else if String.eqb ax "k" then Some (6, 5)
  else None.

(** [getattr(blk, f"n{axis}")], cutGrid.py:154,293,298. *)
Definition countAlong (sh : Z * Z * Z) (ax : string) : option Z :=
  let '(a, b, c) := sh in
  if String.eqb ax "i" then Some a
  else if String.eqb ax "j" then Some b
  else if String.eqb ax "k" then Some c
  else None.

(** numpy basic slicing with step 1 on an axis of length [n]: [a:] and [0:b]. *)
Definition sliceStart (n a : Z) : Z := if a <? 0 then Z.max 0 (n + a) else Z.min a n.
Definition sliceStop (n b : Z) : Z := if b <? 0 then Z.max 0 (n + b) else Z.min b n.

(** cutGrid.py:230-241: the coordinate arrays of the new block, [old[cutIndex:]]. *)
Definition sliceHigh (ax : string) (n idx : Z) (a : Z -> Z -> Z -> R) : Z -> Z -> Z -> R :=
  let s := sliceStart n idx in
  if String.eqb ax "i" then fun i j k => a (s + i) j k
  else if String.eqb ax "j" then fun i j k => a i (s + j) k
  else fun i j k => a i j (s + k).

(** The shapes of the two parts (cutGrid.py:243-244). *)
Definition withCount (sh : Z * Z * Z) (ax : string) (n : Z) : Z * Z * Z :=
  let '(a, b, c) := sh in
  if String.eqb ax "i" then (n, b, c)
  else if String.eqb ax "j" then (a, n, c)
  else (a, b, n).

(** cutGrid.py:230-244 for the old block: [old[0 : cutIndex+1]]. *)
Definition keepLow (ax : string) (n idx : Z) (b : gblock) : gblock :=
  mkGB (gn b) (withCount (gshape b) ax (sliceStop n (idx + 1))) (gx b) (gy b) (gz b) (gfaces b).

(** cutGrid.py:230-244 for the new block. *)
Definition takeHigh (ax : string) (n idx : Z) (src b : gblock) : gblock :=
  mkGB (gn b) (withCount (gshape src) ax (n - sliceStart n idx))
    (sliceHigh ax n idx (gx src)) (sliceHigh ax n idx (gy src)) (sliceHigh ax n idx (gz src))
    (gfaces b).

(** The lateral faces, cutGrid.py:210-212. *)
Definition splitFaces (oldCut newCut : Z) : list Z :=
  filter (fun n => negb (n =? oldCut) && negb (n =? newCut)) [1;2;3;4;5;6].

(** cutGrid.py:213-227, the lateral faces of the new block [nb], copied from [ob]. *)
Fixpoint copySplits (ob : gblock) (fs : list Z) (nb : gblock) : option gblock :=
  match fs with
  | [] => Some nb
  | k :: r =>
    match faceOf ob k, faceOf nb k with
    | Some s, Some d =>
      match copySplit s d with
      | Some d' => copySplits ob r (updFace k (fun _ => d') nb)
      | None => None
      end
    | _, _ => None
    end
  end.

(** foundFaces, cutGrid.py:158-161,183-184,196-197,225-227: all faces on the cut axis, and the
    lateral faces that are boundaries. *)
Definition foundFlags (oldCut newCut : Z) (b : gblock) : list bool :=
  map (fun k => (k =? oldCut) || (k =? newCut) ||
                match faceOf b k with
                | Some g => match neighbor (topo g) with None => true | Some _ => false end
                | None => false
                end) [1;2;3;4;5;6].

(** cutBlock, cutGrid.py:149-244.  Returns the multi-block and the two appended
    (incompleteBlocks, foundFaces) entries. *)
Definition cutBlock (mb : list gblock) (n : Z) (ax : string) (idx : Z)
  : option (list gblock * list (Z * list bool)) :=
  match getBlk mb n with
  | None => None
  | Some old =>
    match countAlong (gshape old) ax, cutFaces ax with
    | Some cnt, Some (oldCut, newCut) =>
      if negb (idx <? cnt - 1) then None              (* the assert, 153-155 *)
      else
        let m := freshNumber mb in
        let mb1 := mb ++ [freshBlock m] in             (* 156 *)
        match faceOf old oldCut, faceOf (freshBlock m) oldCut with
        | Some far, Some dst =>
          match copyFar far dst with                   (* 173-181 *)
          | None => None
          | Some dst' =>
            let mb2 := updBlk m (updFace oldCut (fun _ => dst')) mb1 in
            match                                      (* 186-190 *)
              (match neighbor (topo far) with
               | None => Some mb2
               | Some nb =>
                 match getBlk mb2 nb, orientation (topo far) with
                 | Some nblk, Some o =>
                   match neighborNface oldCut o with
                   | Some nf => Some (updBlk (gn nblk) (updFace nf (withNeighbor (Some m))) mb2)
                   | None => None
                   end
                 | _, _ => None
                 end
               end) with
            | None => None
            | Some mb3 =>
              (* 195-207 *)
              let mb4 := updBlk n (updFace oldCut (asInterior m)) mb3 in
              let mb5 := updBlk m (updFace newCut (asInterior n)) mb4 in
              (* 209-244 *)
              match getBlk mb5 n, getBlk mb5 m with
              | Some ob, Some nb =>
                match copySplits ob (splitFaces oldCut newCut) nb with
                | None => None
                | Some nb' =>
                  let mb6 := updBlk m (fun _ => takeHigh ax cnt idx ob nb') mb5 in
                  let mb7 := updBlk n (keepLow ax cnt idx) mb6 in
                  Some (mb7, [(n, foundFlags oldCut newCut ob); (m, foundFlags oldCut newCut ob)])
                end
              | _, _ => None
              end
            end
          end
        | _, _ => None
        end
    | _, _ => None
    end
  end.

(** A pending cut: block number, axis, whether the sense is reversed (cutGrid.py:251). *)
Definition cutItem := (Z * string * bool)%type.

(** cutGrid.py:260-265. *)
Definition lateral (ax : string) : option (list Z) :=
  if String.eqb ax "i" then Some [3;4;5;6]
  else if String.eqb ax "j" then Some [1;2;5;6]
  else if String.eqb ax "k" then Some [1;2;3;4]
  else None.

(** axisMap, cutGrid.py:248. *)
Definition axisMap (ax : string) : option nat :=
  if String.eqb ax "i" then Some 0%nat
  else if String.eqb ax "j" then Some 1%nat
  else if String.eqb ax "k" then Some 2%nat
  else None.

(** orientationMap, cutGrid.py:249. *)
Definition orientationMap (c : ascii) : option string :=
  (if (c =? "1")%char || (c =? "4")%char then Some "i"
   else if (c =? "2")%char || (c =? "5")%char then Some "j"
   else if (c =? "3")%char || (c =? "6")%char then Some "k"
   else None)%string.

(** cutGrid.py:267-282, one lateral face: returns the items to append (at most one). *)
Definition visit (b : gblock) (ax : string) (sw : bool) (seen : list cutItem) (k : Z)
  : option (list cutItem) :=
  match faceOf b k with
  | None => None
  | Some g =>
    match neighbor (topo g) with
    | None => Some []
    | Some nb =>
      if existsb (fun it => fst (fst it) =? nb) seen then Some []
      else
        match orientation (topo g), axisMap ax with
        | Some o, Some ix =>
          match String.get ix o with
          | Some c =>
            let sw' := if (c =? "4")%char || (c =? "5")%char || (c =? "6")%char
                       then negb sw else sw in
            match orientationMap c with
            | Some ax' => Some [(nb, ax', sw')]
            | None => None
            end
          | None => None
          end
        | _, _ => None
        end
    end
  end.

(** cutGrid.py:267-282: the loop over the lateral faces, extending both lists. *)
Fixpoint visits (b : gblock) (ax : string) (sw : bool) (ks : list Z)
    (cut check : list cutItem) : option (list cutItem * list cutItem) :=
  match ks with
  | [] => Some (cut, check)
  | k :: r =>
    match visit b ax sw cut k with
    | None => None
    | Some its => visits b ax sw r (cut ++ its) (check ++ its)
    end
  end.

(** cutGrid.py:255-283: the while loop.  [fuel] bounds the number of iterations: the outer
    [None] means it was not enough, [Some None] that the code raised. *)
Fixpoint pathLoop (fuel : nat) (mb : list gblock) (cut check : list cutItem)
  : option (option (list cutItem)) :=
  match check with
  | [] => Some (Some cut)
  | (n, ax, sw) :: _ =>
    match fuel with
    | O => None
    | S fuel' =>
      match getBlk mb n, lateral ax with
      | Some b, Some ks =>
        match visits b ax sw ks cut check with
        | None => Some None
        | Some (cut', check') => pathLoop fuel' mb cut' (tl check')
        end
      | _, _ => Some None
      end
    end
  end.

(** cutPath, cutGrid.py:247-285. *)
Definition cutPath (fuel : nat) (mb : list gblock) (n : Z) (ax : string) :=
  pathLoop fuel mb [(n, ax, false)] [(n, ax, false)].

(** cutGrid.py:300: [int(ogNx * (nCuts - cut) / (nCuts + 1))].  Simplification: the float
    quotient is exact (true for point counts below 2^26). *)
Definition cutIndex (ogNx nCuts cut : Z) : Z := ogNx * (nCuts - cut) / (nCuts + 1).

(** cutGrid.py:301. *)
Definition switchCutIndex (cutNx idx : Z) : Z := cutNx - idx - 1.

(** The point counts of the cut block before each cut and the index used (cutGrid.py:296-306;
    the first block of cutPath is the cut block itself, never switched, and keeps the low part).
    [None] when an assert of cutBlock fails. *)
Fixpoint cutCounts (ogNx nCuts : Z) (cuts : list Z) (cutNx : Z) : option (list (Z * Z)) :=
  match cuts with
  | [] => Some []
  | c :: r =>
    let idx := cutIndex ogNx nCuts c in
    if idx <? cutNx - 1 then
      match cutCounts ogNx nCuts r (sliceStop cutNx (idx + 1)) with
      | Some l => Some ((cutNx, idx) :: l)
      | None => None
      end
    else None
  end.
