(** Trace points: utilities/generateTracePoints.py, src/peregrinepy/coproc/{pgCoprocessor,tracePointCoprocessor}.py.  Definitions only.
    Exact reals.  The answer of ptsInBlkBounds is a parameter of a block, as in M_Interp; the text "{xc:.6f}_..." of a file name is a
    parameter.  A Python exception is None unless it is named. *)
From Coq Require Import Reals ZArith String Ascii List Bool.
From Verif Require Import M_Halo M_Grid.
Import ListNotations.
Open Scope R_scope.

Definition pt3 := (R * R * R)%type.
Definition c0 (p : pt3) : R := fst (fst p). Definition c1 (p : pt3) : R := snd (fst p). Definition c2 (p : pt3) : R := snd p.

(** ** The collections of points (generateTracePoints.py:53-127) *)
(** createPoint: lines 53-59 *)
Definition createPoint (p0 : pt3) : list pt3 := [p0].
(** createLine: lines 62-77; linspace of a negative number of points raises *)
Definition createLine (p0 p1 : pt3) (n : Z) : option (list pt3) :=
  if (n <? 0)%Z then None
  else Some (map (fun i => (linspace (c0 p0) (c0 p1) n i, linspace (c1 p0) (c1 p1) n i, linspace (c2 p0) (c2 p1) n i)) (zrange 0 n)).
(** np.linalg.norm *)
Definition norm3 (v : pt3) : R := sqrt (c0 v * c0 v + c1 v * c1 v + c2 v * c2 v).
Definition sub3 (a b : pt3) : pt3 := (c0 a - c0 b, c1 a - c1 b, c2 a - c2 b).
(** v / l; numpy gives nan for l = 0: None *)
Definition over (v : pt3) (l : R) : option pt3 := if Req_EM_T l 0 then None else Some (c0 v / l, c1 v / l, c2 v / l).
(** createPlane: lines 80-121; ravel() of the (n01, n02) arrays: the second index runs fastest *)
Definition createPlane (p0 p1 p2 : pt3) (n01 n02 : Z) : option (list pt3) :=
  if ((n01 <? 0) || (n02 <? 0))%Z%bool then None
  else match over (sub3 p1 p0) (norm3 (sub3 p1 p0)), over (sub3 p2 p0) (norm3 (sub3 p2 p0)) with
       | Some e1, Some e2 =>
           Some (flat_map (fun i => map (fun j =>
             (c0 p0 + c0 e1 * linspace 0 1 n01 i + c0 e2 * linspace 0 1 n02 j,
              c1 p0 + c1 e1 * linspace 0 1 n01 i + c1 e2 * linspace 0 1 n02 j,
              c2 p0 + c2 e1 * linspace 0 1 n01 i + c2 e2 * linspace 0 1 n02 j)) (zrange 0 n02)) (zrange 0 n01))
       | _, _ => None
       end.
(** an entry of the input file, lines 137-163; createCircle (124-125) returns None, whose attribute shape does not exist *)
Inductive collection := CPoint (p0 : pt3) | CLine (p0 p1 : pt3) (n : Z) | CPlane (p0 p1 p2 : pt3) (n01 n02 : Z) | CCircle | CUdf (pts : list pt3) (tags : list string) | CUnknown.
Definition pointsOf (name : string) (c : collection) : option (list pt3 * list string) :=
  let tagged o := match o with Some l => Some (l, map (fun _ => name) l) | None => None end in
  match c with
  | CPoint p0 => tagged (Some (createPoint p0))
  | CLine p0 p1 n => tagged (createLine p0 p1 n)
  | CPlane p0 p1 p2 n01 n02 => tagged (createPlane p0 p1 p2 n01 n02)
  | CCircle => None
  | CUdf pts tags => Some (pts, tags)
  | CUnknown => None
  end.
(** getPointsTagsFromInput (generateTracePoints.py:128-168) *)
Fixpoint pointsTags (inp : list (string * collection)) : option (list pt3 * list string) :=
  match inp with
  | [] => Some ([], [])
  | (name, c) :: rest => match pointsOf name c, pointsTags rest with Some (p, t), Some (ps, ts) => Some (p ++ ps, t ++ ts) | _, _ => None end
  end.

(** ** Looking the points up in the grid (generateTracePoints.py:171-232) *)
(** Python's binding of a call: [params] the parameters of the function (all with defaults after the first), the number of positional
    arguments and the keywords.  TypeError on too many positional arguments, unknown keywords, or a keyword already bound by position. *)
Definition bindOk (params : list string) (npos : nat) (kws : list string) : bool :=
  Nat.leb npos (List.length params) && forallb (fun k => existsb (String.eqb k) (skipn npos params)) kws.
(** gridBlock.computeMetrics(self, xcOnly=False) (gridBlock.py:150) *)
Definition computeMetricsParams : list string := ["self"; "xcOnly"]%string.
(** a block: its number, the answer of ptsInBlkBounds, and its cell centres in C order (at least one) *)
Record pblk := mkPb { pb_n : Z; pb_inside : pt3 -> bool; pb_first : (Z * Z * Z) * pt3; pb_rest : list ((Z * Z * Z) * pt3) }.
(** dists (generateTracePoints.py:196-200) *)
Definition distTo (p : pt3) (c : pt3) : R := sqrt ((c0 c - c0 p) ^ 2 + (c1 c - c1 p) ^ 2 + (c2 c - c2 p) ^ 2).
(** the first cell, in C order, whose distance is the minimum (generateTracePoints.py:201-202) *)
Definition nearestCell (p : pt3) (b : pblk) : (Z * Z * Z) :=
  fst (fold_left (fun best c => if Rlt_dec (distTo p (snd c)) (distTo p (snd best)) then c else best) (pb_rest b) (pb_first b)).
Inductive exn := TypeError | OtherError.
Inductive result (X : Type) := Done (x : X) | Raised (e : exn).
Arguments Done {X}. Arguments Raised {X}.
(** one block, all the points (generateTracePoints.py:178-215): a point already found is reported and skipped.  [accepts]: the call
    blk.computeMetrics(2, xcOnly=True) of line 195 binds. *)
Fixpoint oneBlock (accepts : bool) (b : pblk) (pts : list pt3) (found : list (option (Z * (Z * Z * Z)))) : result (list (option (Z * (Z * Z * Z)))) :=
  match pts, found with
  | p :: pts', f :: found' =>
      match (match f with
             | Some _ => Done f
             | None => if pb_inside b p then (if accepts then Done (Some (pb_n b, nearestCell p b)) else Raised TypeError) else Done None
             end), oneBlock accepts b pts' found' with
      | Done x, Done l => Done (x :: l)
      | Raised e, _ => Raised e
      | _, Raised e => Raised e
      end
  | _, _ => Done []
  end.
Fixpoint allBlocks (accepts : bool) (bs : list pblk) (pts : list pt3) (found : list (option (Z * (Z * Z * Z)))) : result (list (option (Z * (Z * Z * Z)))) :=
  match bs with
  | [] => Done found
  | b :: bs' => match oneBlock accepts b pts found with Done f => allBlocks accepts bs' pts f | Raised e => Raised e end
  end.
(** indexes[found], tags[found] (generateTracePoints.py:217-232): the rows and tags that are written *)
Fixpoint kept (found : list (option (Z * (Z * Z * Z)))) (tags : list string) : list (Z * (Z * Z * Z)) * list string :=
  match found, tags with
  | Some x :: f, t :: ts => let '(a, b) := kept f ts in (x :: a, t :: b)
  | None :: f, _ :: ts => kept f ts
  | _, _ => ([], [])
  end.
(** generateTracePoints; numpy raises IndexError or the assertion fails if there is not one tag per point *)
Definition lookUp (accepts : bool) (bs : list pblk) (pts : list pt3) (tags : list string) : result (list (Z * (Z * Z * Z)) * list string) :=
  match allBlocks accepts bs pts (map (fun _ => None) pts) with
  | Raised e => Raised e
  | Done found => if Nat.eqb (List.length pts) (List.length tags) then Done (kept found tags) else Raised OtherError
  end.
Definition generateTracePoints (bs : list pblk) (pts : list pt3) (tags : list string) : result (list (Z * (Z * Z * Z)) * list string) :=
  lookUp (bindOk computeMetricsParams 2 ["xcOnly"%string]) bs pts tags.

(** ** The coprocessor *)
(** the modules of the package directory src/peregrinepy/coproc *)
Definition coprocModules : list string := ["catalystCoprocessor"; "pgCoprocessor"; "tracePointCoprocessor"]%string.
(** "from .m import ..." finds the module (ModuleNotFoundError otherwise) *)
Definition importable (m : string) : bool := existsb (String.eqb m) coprocModules.
(** coprocessor.__init__, the trace branch (pgCoprocessor.py:5-13): None on ModuleNotFoundError, which nothing catches *)
Definition startTrace (trace : bool) : option bool :=
  if trace then (if importable "tracePointCoprocesor" then Some true else None) else Some false.

(** a block on this rank: number, ghost layers, allocated cells per direction, cell centres, primitive variables, species *)
Record tblk := mkTb { tb_n : Z; tb_ng : Z; tb_dims : Z * Z * Z; tb_xc : Z -> Z -> Z -> pt3; tb_q : Z -> Z -> Z -> list R; tb_species : list string }.
(** a line of a trace file: the titles of its columns, or numbers *)
Inductive tline := Titles (l : list string) | Row (l : list R).
Definition files := string -> option (list tline).
Record tpoint := mkTp { tp_file : string; tp_blk : Z; tp_i : Z; tp_j : Z; tp_k : Z }.
(** the titles (tracePointCoprocessor.py:54-70): with more than one species, speciesNames[0:-2] and speciesNames[-2] *)
Definition titles (sp : list string) : list string :=
  ["Time (s)"; "p [Pa]"; "u [m/s]"; "v [m/s]"; "w [m/s]"; "T [K]"]%string ++
  (if Nat.ltb 1 (List.length sp) then firstn (List.length sp - 2) sp ++ firstn 1 (skipn (List.length sp - 2) sp) else []).
Definition within (d : Z * Z * Z) (i j k : Z) : bool :=
  ((0 <=? i) && (i <? fst (fst d)) && (0 <=? j) && (j <? snd (fst d)) && (0 <=? k) && (k <? snd d))%Z%bool.
(** tracePointsCoprocessor.__init__ (tracePointCoprocessor.py:37-76), one block and one row of the points array; negative indices, which
    numpy would count from the end, are treated as errors *)
Definition addPoint (name : string -> pt3 -> string) (b : tblk) (st : list tpoint * files) (row : (Z * (Z * Z * Z)) * string) : option (list tpoint * files) :=
  let '((n, (i, j, k)), tag) := row in
  if (n =? tb_n b)%Z then
    let i := (i + tb_ng b)%Z in let j := (j + tb_ng b)%Z in let k := (k + tb_ng b)%Z in
    if within (tb_dims b) i j k then
      let f := name tag (tb_xc b i j k) in
      Some (fst st ++ [mkTp f (tb_n b) i j k],
            match snd st f with Some _ => snd st | None => fun g => if String.eqb g f then Some [Titles (titles (tb_species b))] else snd st g end)
    else None
  else Some st.
Fixpoint foldM {X S} (f : S -> X -> option S) (l : list X) (s : S) : option S := match l with [] => Some s | x :: l' => match f s x with Some s' => foldM f l' s' | None => None end end.
Definition initTraces (name : string -> pt3 -> string) (rows : list ((Z * (Z * Z * Z)) * string)) (mb : list tblk) (d : files) : option (list tpoint * files) :=
  foldM (fun st b => foldM (addPoint name b) rows st) mb ([], d).
(** topology.getBlock (topology.py:28-34) on the blocks of this rank: IndexError beyond the list; None of Python when there is no such block *)
Inductive got := GotBlock (b : tblk) | GotNone | GotIndexError.
Definition getBlk (mb : list tblk) (n : Z) : got :=
  match (if (n <? 0)%Z then nth_error mb (Z.to_nat (Z.of_nat (List.length mb) + n)) else nth_error mb (Z.to_nat n)) with
  | None => GotIndexError
  | Some b => if (tb_n b =? n)%Z then GotBlock b else match find (fun b => (tb_n b =? n)%Z) mb with Some b => GotBlock b | None => GotNone end
  end.
(** one trace (tracePointCoprocessor.py:87-99) *)
Definition writeRow (mb : list tblk) (tme : R) (d : files) (t : tpoint) : option files :=
  match getBlk mb (tp_blk t) with
  | GotBlock b => Some (fun g => if String.eqb g (tp_file t)
                                 then Some ((match d g with Some l => l | None => [] end) ++ [Row (tme :: tb_q b (tp_i t) (tp_j t) (tp_k t))]) else d g)
  | _ => None
  end.
(** tracePointsCoprocessor.__call__ (tracePointCoprocessor.py:78-99); modulo zero raises *)
Definition callTraces (niterTrace : Z) (ts : list tpoint) (mb : list tblk) (nrt : Z) (tme : R) (d : files) : option files :=
  if (niterTrace =? 0)%Z then None
  else if (nrt mod niterTrace =? 0)%Z then foldM (writeRow mb tme) ts d else Some d.
