(** Model of utilities/cutGrid.py: faceSlice, extractCorners, findInteriorNeighbor (14-146) and
    performCutOperations (288-311).  Definitions only; the blocks, cutBlock and cutPath are those of M_Cut.
    Python exceptions are [None]; of loops whose length is bounded by [fuel], [None] outside.

    Simplifications:
    - coordinates are reals; the arrays are read at the four corners of a face with numpy's indices
      0 and -1, the latter being (points - 1);
    - faces are visited as the face numbers 1..6 (topologyBlock.py:11-17: that is their order);
    - the corner arrays are recomputed from the grid instead of being stored: findInteriorNeighbor does
      not change coordinates between storing and reading them;
    - grid faces are topologyFace objects (topologyBlock.py:14-17) without an [array] attribute, so the
      two rotational branches (cutGrid.py:95-106) raise. *)
From Coq Require Import ZArith String List Bool Reals.
From Verif Require Import M_Topology M_Cut.
Import ListNotations.
Open Scope Z_scope.

Definition point := (R * R * R)%type.

(** The four corners of a face, cutGrid.py:14-26 and 44-56: [a[0,0], a[0,-1], a[-1,0], a[-1,-1]] of the slice. *)
Definition cornerIndices (sh : Z * Z * Z) (k : Z) : list (Z * Z * Z) :=
  let '(ni, nj, nk) := sh in
  let i1 := ni - 1 in let j1 := nj - 1 in let k1 := nk - 1 in
  if k =? 1 then [(0, 0, 0); (0, 0, k1); (0, j1, 0); (0, j1, k1)]
  else if k =? 2 then [(i1, 0, 0); (i1, 0, k1); (i1, j1, 0); (i1, j1, k1)]
  else if k =? 3 then [(0, 0, 0); (0, 0, k1); (i1, 0, 0); (i1, 0, k1)]
  else if k =? 4 then [(0, j1, 0); (0, j1, k1); (i1, j1, 0); (i1, j1, k1)]
  else if k =? 5 then [(0, 0, 0); (0, j1, 0); (i1, 0, 0); (i1, j1, 0)]
  else [(0, 0, k1); (0, j1, k1); (i1, 0, k1); (i1, j1, k1)].

(** np.mean of the four corner values of one coordinate, cutGrid.py:81-83 and 116-124. *)
Definition meanOf (f : Z -> Z -> Z -> R) (l : list (Z * Z * Z)) : R :=
  (fold_left (fun s p => let '(i, j, k) := p in s + f i j k) l 0 / 4)%R.
Definition centre (b : gblock) (k : Z) : point :=
  let c := cornerIndices (gshape b) k in (meanOf (gx b) c, meanOf (gy b) c, meanOf (gz b) c).

(** cutGrid.py:84-106: the centre moved across a periodic face. *)
Definition moved (g : gface) (c : point) : option point :=
  let '(x, y, z) := c in
  let t := bcType (topo g) in
  if String.eqb t "periodicTransLow" then
    match paxis g, span g with
    | Some (a, b, c), Some s => Some ((x + a * s)%R, (y + b * s)%R, (z + c * s)%R)
    | _, _ => None
    end
  else if String.eqb t "periodicTransHigh" then
    match paxis g, span g with
    | Some (a, b, c), Some s => Some ((x - a * s)%R, (y - b * s)%R, (z - c * s)%R)
    | _, _ => None
    end
  else if String.eqb t "periodicRotLow" then None
  else if String.eqb t "periodicRotHigh" then None
  else Some c.

(** cutGrid.py:125-129. *)
Definition distance (p q : point) : R :=
  let '(a, b, c) := p in let '(x, y, z) := q in
  sqrt ((a - x) * (a - x) + (b - y) * (b - y) + (c - z) * (c - z)).
Definition isNear (p q : point) : bool := if Rlt_dec (distance p q) (1 / 1000000000) then true else false.

(** incompleteBlocks and foundFaces, side by side. *)
Definition table := list (Z * list bool).
Definition flagOf (ff : table) (i : nat) (k : Z) : bool :=
  match nth_error ff i with Some (_, l) => nth (Z.to_nat (k - 1)) l false | None => false end.
Definition setFlag (ff : table) (i : nat) (k : Z) : table :=
  match nth_error ff i with
  | Some (n, l) => set_nth ff i (n, set_nth l (Z.to_nat (k - 1)) true)
  | None => ff
  end.

(** cutGrid.py:110-134: one test face [k'] of entry [ti], against face [k] of entry [i] (block [X]) whose
    moved centre is [c].  [geo] is the grid the corners were extracted from. *)
Definition testFace (geo : list gblock) (i : nat) (X k : Z) (c : point) (ti : nat) (Y k' : Z)
    (st : list gblock * table) : option (list gblock * table) :=
  let '(mb, ff) := st in
  if flagOf ff ti k' then Some st
  else if (X =? Y) && (k =? k') then Some st
  else match getBlk geo Y with
  | None => None
  | Some b =>
    if isNear c (centre b k') then
      Some (updBlk Y (updFace k' (withNeighbor (Some X))) (updBlk X (updFace k (withNeighbor (Some Y))) mb),
            setFlag (setFlag ff i k) ti k')
    else Some st
  end.

Definition bindO {A B} (o : option A) (f : A -> option B) : option B := match o with Some a => f a | None => None end.
Fixpoint foldO {A S} (f : A -> S -> option S) (l : list A) (s : S) : option S :=
  match l with [] => Some s | a :: r => bindO (f a s) (foldO f r) end.

(** enumerate *)
Definition enumerate {A} (l : list A) : list (nat * A) := combine (seq 0 (length l)) l.

(** cutGrid.py:108-134: all test faces. *)
Definition testAll (geo : list gblock) (blocks : list Z) (i : nat) (X k : Z) (c : point)
    (st : list gblock * table) : option (list gblock * table) :=
  foldO (fun ty st => foldO (fun k' st => testFace geo i X k c (fst ty) (snd ty) k' st) [1;2;3;4;5;6] st)
    (enumerate blocks) st.

(** cutGrid.py:76-134: one face of one incomplete block. *)
Definition resolveFace (geo : list gblock) (blocks : list Z) (i : nat) (X : Z) (k : Z)
    (st : list gblock * table) : option (list gblock * table) :=
  let '(mb, ff) := st in
  match getBlk mb X with
  | None => None
  | Some b =>
    match faceOf b k with
    | None => None
    | Some g =>
      if negb (String.eqb (bcType (topo g)) "b0") && negb (isPeriodic (bcType (topo g))) then Some st
      else if flagOf ff i k then Some st
      else match getBlk geo X with
      | None => None
      | Some gb => match moved g (centre gb k) with
                   | None => None
                   | Some c => testAll geo blocks i X k c st
                   end
      end
    end
  end.

(** cutGrid.py:68-134: one incomplete block; skipped when complete. *)
Definition resolveBlock (geo : list gblock) (blocks : list Z) (ix : nat * Z)
    (st : list gblock * table) : option (list gblock * table) :=
  match nth_error (snd st) (fst ix) with
  | Some (_, l) => if forallb (fun x => x) l then Some st
                   else foldO (fun k st => resolveFace geo blocks (fst ix) (snd ix) k st) [1;2;3;4;5;6] st
  | None => None
  end.

(** findInteriorNeighbor, cutGrid.py:58-146: the grid and the entries left incomplete. *)
Definition findInterior (mb : list gblock) (ff : table) : option (list gblock * table) :=
  let blocks := map fst ff in
  bindO (foldO (resolveBlock mb blocks) (enumerate blocks) (mb, ff))
    (fun st => Some (fst st, filter (fun e => negb (forallb (fun x => x) (snd e))) (snd st))).

(** cutGrid.py:303-306: the blocks of one cut. *)
Fixpoint cutItems (cutNx idx switchIdx : Z) (items : list cutItem) (mb : list gblock) (ff : table)
  : option (list gblock * table) :=
  match items with
  | [] => Some (mb, ff)
  | (n, ax, sw) :: r =>
    match getBlk mb n with
    | None => None
    | Some b =>
      match countAlong (gshape b) ax with
      | None => None
      | Some cnt =>
        if negb (cnt =? cutNx) then None                          (* the assert, 304 *)
        else match cutBlock mb n ax (if sw then switchIdx else idx) with
        | None => None
        | Some (mb', f) => cutItems cutNx idx switchIdx r mb' (ff ++ f)
        end
      end
    end
  end.

(** cutGrid.py:296-311: one cut of block [n] at the given index. *)
Definition cutOnce (fuel : nat) (mb : list gblock) (n : Z) (ax : string) (idx : Z) : option (option (list gblock)) :=
  match cutPath fuel mb n ax with
  | None => None
  | Some None => Some None
  | Some (Some items) =>
    Some (match getBlk mb n with
    | None => None
    | Some b =>
      match countAlong (gshape b) ax with
      | None => None
      | Some cutNx =>
        match cutItems cutNx idx (switchCutIndex cutNx idx) items mb [] with
        | None => None
        | Some (mb', ff) =>
          match findInterior mb' ff with
          | Some (mb'', []) => Some mb''                           (* the asserts, 309-310 *)
          | _ => None
          end
        end
      end
    end)
  end.

(** cutGrid.py:295-311: the cuts of one operation. *)
Fixpoint cutTimes (fuel : nat) (n : Z) (ax : string) (ogNx nCuts : Z) (cuts : list Z) (mb : list gblock)
  : option (option (list gblock)) :=
  match cuts with
  | [] => Some (Some mb)
  | c :: r =>
    match cutOnce fuel mb n ax (cutIndex ogNx nCuts c) with
    | Some (Some mb') => cutTimes fuel n ax ogNx nCuts r mb'
    | o => o
    end
  end.

(** performCutOperations, cutGrid.py:288-311. *)
Fixpoint performCuts (fuel : nat) (ops : list (Z * string * Z)) (mb : list gblock)
  : option (option (list gblock)) :=
  match ops with
  | [] => Some (Some mb)
  | (n, ax, nCuts) :: r =>
    match getBlk mb n with
    | None => Some None
    | Some b =>
      match countAlong (gshape b) ax with
      | None => Some None
      | Some ogNx =>
        match cutTimes fuel n ax ogNx nCuts (map Z.of_nat (seq 0 (Z.to_nat nCuts))) mb with
        | Some (Some mb') => performCuts fuel r mb'
        | o => o
        end
      end
    end
  end.
