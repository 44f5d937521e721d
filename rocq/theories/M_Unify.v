(** Model of grid/unifySolverGrid.py: halo nodes of all blocks, made consistent across connected and
    periodic faces.  Definitions only.

    Simplifications: x, y and z, exchanged one after the other with the same slices, orientations and
    tags (communicate.py:12), are exchanged here as one array of triples; the host/device copies
    (lines 13-15, 49-50) are identities; the periodic rotation matrices are computed from the span
    and axis the face holds (gridFace.py:25-71 computes them when the axis is set).  None stands for
    a raised exception (e.g. a periodic face without span). *)
From Coq Require Import Reals ZArith String List Bool.
From Verif Require Import M_Topology M_Halo M_Grid.
Import ListNotations.
Open Scope Z_scope.

(** ** gridFace.py:36-66: entry (r,c) of the rotation matrix for angle [th] (radians) about (ux,uy,uz) *)
Definition rotMatrix (axis : vec) (th : R) : vec * vec * vec :=
  (let ct := cos th in let st := sin th in
   let ux := vx axis in let uy := vy axis in let uz := vz axis in
   ((ct + ux ^ 2 * (1 - ct), ux * uy * (1 - ct) - uz * st, ux * uz * (1 - ct) + uy * st),
    (uy * ux * (1 - ct) + uz * st, ct + uy ^ 2 * (1 - ct), uy * uz * (1 - ct) - ux * st),
    (uz * ux * (1 - ct) - uy * st, uz * uy * (1 - ct) + ux * st, ct + uz ^ 2 * (1 - ct))))%R.
Definition periodicRotMatrixUp (axis : vec) (span : R) := rotMatrix axis (span * PI / 180)%R.
Definition periodicRotMatrixDown (axis : vec) (span : R) := rotMatrix axis (- (span * PI / 180))%R.

(* unifySolverGrid.py:41-46 *)
Definition matVec (m : vec * vec * vec) (v : vec) : vec :=
  let '(r0, r1, r2) := m in
  (vx r0 * vx v + vy r0 * vy v + vz r0 * vz v,
   vx r1 * vx v + vy r1 * vy v + vz r1 * vz v,
   vx r2 * vx v + vy r2 * vy v + vz r2 * vz v)%R.

(** What is done to a node of a halo slice of the face, unifySolverGrid.py:19-46.  The outer None is an
    exception; a type starting with "periodic" but none of the four is left alone by the if/elif
    (lines 28-46), except that "periodicRot..." other than Low/High has no rotM (UnboundLocalError). *)
Definition faceMove (f : gface) : option (vec -> vec) :=
  let t := bcType (gf_face f) in
  if negb (String.prefix "periodic" t) then Some (fun v => v)
  else if String.eqb t "periodicTransLow" then
    match gf_axis f, gf_span f with
    | Some a, Some s => Some (fun v => (vx v - vx a * s, vy v - vy a * s, vz v - vz a * s)%R)
    | _, _ => None end
  else if String.eqb t "periodicTransHigh" then
    match gf_axis f, gf_span f with
    | Some a, Some s => Some (fun v => (vx v + vx a * s, vy v + vy a * s, vz v + vz a * s)%R)
    | _, _ => None end
  else if String.prefix "periodicRot" t then
    match gf_axis f, gf_span f with
    | Some a, Some s =>
      if String.eqb t "periodicRotLow" then Some (matVec (periodicRotMatrixDown a s))
      else if String.eqb t "periodicRotHigh" then Some (matVec (periodicRotMatrixUp a s))
      else None
    | _, _ => None end
  else Some (fun v => v).

(** solverFace.py:22-46, the slices s0_ in order; negative indices count from the end of an axis of
    [N] entries. *)
Definition s0Slices (nface : Z) (d : dims) (ng : Z) : list Z :=
  let small := rev (zrange 0 ng) in
  let large N := map (fun i => N + i) (zrange (- ng) 0) in
  match nface with
  | 1 | 3 | 5 => small
  | 2 => large (ni d + 2 * ng) | 4 => large (nj d + 2 * ng) | _ => large (nk d + 2 * ng)
  end.

(* unifySolverGrid.py:23-46: x, y, z of one slice replaced in place *)
Definition moveSlice (nface : Z) (T : vec -> vec) (x : array3 vec) (s : Z) : array3 vec :=
  match nface with
  | 1 | 2 => fun i j k => if i =? s then T (x i j k) else x i j k
  | 3 | 4 => fun i j k => if j =? s then T (x i j k) else x i j k
  | _ => fun i j k => if k =? s then T (x i j k) else x i j k
  end.
Definition moveFace (ng : Z) (d : dims) (x : option (array3 vec)) (f : gface) : option (array3 vec) :=
  match x, faceMove f with
  | Some x, Some T => Some (fold_left (moveSlice (nface (gf_face f)) T) (s0Slices (nface (gf_face f)) d ng) x)
  | _, _ => None
  end.
(* unifySolverGrid.py:17-46, one block *)
Definition moveBlock (ng : Z) (st : option (state vec)) (b : gblock) : option (state vec) :=
  match st with
  | None => None
  | Some s => match fold_left (moveFace ng (gb_dims b)) (gb_faces b) (Some (s (gb_num b))) with
              | Some x => Some (fun n => if n =? gb_num b then x else s n)
              | None => None end
  end.

(** generateHalo on the three coordinates of one block, unifySolverGrid.py:5-7. *)
Definition haloBlock (ng : Z) (s : state vec) (b : gblock) : state vec :=
  let x := s (gb_num b) in
  fun n => if n =? gb_num b
           then fun i j k => (generateHalo (gb_dims b) ng (fun i j k => vx (x i j k)) i j k,
                              generateHalo (gb_dims b) ng (fun i j k => vy (x i j k)) i j k,
                              generateHalo (gb_dims b) ng (fun i j k => vz (x i j k)) i j k)
           else s n.

(* unifySolverGrid.py:9-11 *)
Fixpoint rounds (n : nat) (ng : Z) (cw : list (list cblock)) (s : state vec) : option (state vec) :=
  match n with
  | O => Some s
  | S m => match communicate ng KNode cw s with Some s' => rounds m ng cw s' | None => None end
  end.

(** The blocks as the halo exchange sees them. *)
Definition solverBlock (b : gblock) : sblock := mkSBlock (mkBlock (gb_num b) (map gf_face (gb_faces b))) (gb_dims b).

(** unifySolverGrid on all ranks: [w] lists, by rank, the blocks owned; the state is the global map from
    block numbers to node arrays (halo included). *)
Definition unifySolverGrid (ng : Z) (w : list (list gblock)) (s : state vec) : option (state vec) :=
  match setupAll ng (map (map solverBlock) w) with
  | None => None
  | Some cw =>
    let blocks := List.concat w in
    match rounds 3 ng cw (fold_left (haloBlock ng) blocks s) with
    | None => None
    | Some s3 => fold_left (moveBlock ng) blocks (Some s3)
    end
  end.
