(** Model of src/compute/rangeMap.cpp and src/compute/boundaryConditions/{walls,exits,inlets,periodics}.cpp and of
    src/peregrinepy/multiBlock/gridFace.py:24-71 (periodicAxis).  A block is the field of its cells (Q, q, qh of M_FluxKernels), halos
    included; the gradients are three more arrays.  Exact real arithmetic.  Every Kokkos loop below writes only cell (a,b) of one slice
    and reads only cells (a,b) of this and two other slices, so its iterations are independent and a simultaneous update models it. *)
From Coq Require Import Reals ZArith List Bool.
From Verif Require Import M_Topology M_Halo M_Grid M_Metrics M_Flux M_FluxKernels.
Import ListNotations.
Open Scope R_scope.

(** * rangeMap.cpp *)
(** getRange3 (rangeMap.cpp:5-63): lower corner and exclusive upper corner; None is the exception *)
Definition getRange3 (d : dims) (ng nface indxI indxJ indxK : Z) : option ((Z * Z * Z) * (Z * Z * Z)) :=
  let ti := (ni d + 2 * ng - 1)%Z in let tj := (nj d + 2 * ng - 1)%Z in let tk := (nk d + 2 * ng - 1)%Z in
  let hi := (ni d + ng - 1)%Z in let hj := (nj d + ng - 1)%Z in let hk := (nk d + ng - 1)%Z in
  if (nface =? -1)%Z then Some ((0, 0, 0), (ti, tj, tk))%Z
  else if (nface =? 0)%Z then Some ((ng, ng, ng), (hi, hj, hk))
  else if (nface =? 1)%Z then Some ((0, 0, 0), (ng, tj, tk))%Z
  else if (nface =? 2)%Z then Some ((hi, 0, 0), (ti, tj, tk))%Z
  else if (nface =? 3)%Z then Some ((0, 0, 0), (ti, ng, tk))%Z
  else if (nface =? 4)%Z then Some ((0, hj, 0), (ti, tj, tk))%Z
  else if (nface =? 5)%Z then Some ((0, 0, 0), (ti, tj, ng))%Z
  else if (nface =? 6)%Z then Some ((0, 0, hk), (ti, tj, tk))%Z
  else if (nface =? 10)%Z then Some ((indxI, indxJ, indxK), (indxI + 1, indxJ + 1, indxK + 1))%Z
  else None.
(** the cells an MDRangePolicy visits *)
Definition inRange (r : (Z * Z * Z) * (Z * Z * Z)) (i j k : Z) : bool :=
  let '((li, lj, lk), (ui, uj, uk)) := r in
  ((li <=? i) && (i <? ui) && (lj <=? j) && (j <? uj) && (lk <=? k) && (k <? uk))%Z%bool.
(** getFaceSliceIdxs (rangeMap.cpp:122-158): firstHaloIdx, firstInteriorCellIdx, blockFaceIdx, plus *)
Definition getFaceSliceIdxs (d : dims) (ng nface : Z) : option (Z * Z * Z * Z) :=
  if ((nface =? 1) || (nface =? 3) || (nface =? 5))%Z%bool then Some (ng - 1, ng, ng, 1)%Z
  else if (nface =? 2)%Z then Some (ni d + ng - 1, ni d + ng - 2, ni d + ng - 1, -1)%Z
  else if (nface =? 4)%Z then Some (nj d + ng - 1, nj d + ng - 2, nj d + ng - 1, -1)%Z
  else if (nface =? 6)%Z then Some (nk d + ng - 1, nk d + ng - 2, nk d + ng - 1, -1)%Z
  else None.
(** getFaceSlice (rangeMap.cpp:65-120): which cell of the block entry (a,b) of slice s is *)
Definition cellAt (nface s a b : Z) : Z * Z * Z :=
  if ((nface =? 1) || (nface =? 2))%Z%bool then (s, a, b) else if ((nface =? 3) || (nface =? 4))%Z%bool then (a, s, b) else (a, b, s).
(** ... and back: slice index and the two in-slice indices of a cell *)
Definition faceCoord (nface i j k : Z) : Z * Z * Z :=
  if ((nface =? 1) || (nface =? 2))%Z%bool then (i, j, k) else if ((nface =? 3) || (nface =? 4))%Z%bool then (j, i, k) else (k, i, j).
Definition slice {A} (f : Z -> Z -> Z -> A) (nface s a b : Z) : A := let '(i, j, k) := cellAt nface s a b in f i j k.
(** extent(0), extent(1) of a slice of a cell array *)
Definition sliceExt (d : dims) (ng nface : Z) : Z * Z :=
  let ti := (ni d + 2 * ng - 1)%Z in let tj := (nj d + 2 * ng - 1)%Z in let tk := (nk d + 2 * ng - 1)%Z in
  if ((nface =? 1) || (nface =? 2))%Z%bool then (tj, tk) else if ((nface =? 3) || (nface =? 4))%Z%bool then (ti, tk) else (ti, tj).

(** * one boundary face *)
Definition field := Z -> Z -> Z -> cell.
(** what a face carries: qBcVals, QBcVals and the periodic rotation matrices (face_.hpp:15-41) *)
Record faceData := mkFD { f_qBc : Z -> Z -> Z -> R; f_QBc : Z -> Z -> Z -> R; f_up : Z -> Z -> R; f_down : Z -> Z -> R }.
Inductive bcKind :=
  | adiabaticNoSlipWall | adiabaticSlipWall | adiabaticMovingWall | isoTNoSlipWall | isoTSlipWall | isoTMovingWall
  | constantVelocitySubsonicInlet | supersonicInlet | constantMassFluxSubsonicInlet | stagnationSubsonicInlet
  | constantPressureSubsonicExit | supersonicExit | periodicRotLow | periodicRotHigh | nullBc.
Definition setCq (q : Z -> R) (c : cell) : cell := mkCell (cQ c) q (ch c).
(** velocity components replaced, the rest kept *)
Definition withVel (q : Z -> R) (u v w : R) : Z -> R := fun l => if (l =? 1)%Z then u else if (l =? 2)%Z then v else if (l =? 3)%Z then w else q l.
(** mirrored velocity (walls.cpp:66-71 and the same lines of the other five walls) *)
Definition mirrorU (n : vec) (q1 : Z -> R) : R * R * R :=
  let uDotn := q1 1%Z * vx n + q1 2%Z * vy n + q1 3%Z * vz n in
  (q1 1%Z - 2 * uDotn * vx n, q1 2%Z - 2 * uDotn * vy n, q1 3%Z - 2 * uDotn * vz n).
Definition wallEuler (isoT : bool) (ne : Z) (n : vec) (bv q1 q0 : Z -> R) : Z -> R :=
  let '(u, v, w) := mirrorU n q1 in
  withVel (fun l => if ((0 <=? l) && (l <? ne))%Z%bool then (if ((l =? 4)%Z && isoT)%bool then bv 4%Z else q1 l) else q0 l) u v w.
(** exits.cpp:48-79 and 151-187: velocity extrapolated, or mirrored on reverse flow *)
Definition exitVel (n : vec) (plus : Z) (q1 q2 : Z -> R) : R * R * R :=
  let dplus := - IZR plus in
  let uDotn := (q1 1%Z * vx n + q1 2%Z * vy n + q1 3%Z * vz n) * dplus in
  if Rlt_dec 0 uDotn then (2 * q1 1%Z - q2 1%Z, 2 * q1 2%Z - q2 2%Z, 2 * q1 3%Z - q2 3%Z)
  else (q1 1%Z - 2 * uDotn * vx n * dplus, q1 2%Z - 2 * uDotn * vy n * dplus, q1 3%Z - 2 * uDotn * vz n * dplus).
(** inlets.cpp:387-412: gamma, boundary velocity and Mach number of the stagnation inlet *)
Definition stagnation (n : vec) (c1 : cell) : R * R * R :=
  let q1 := cq c1 in let gamma := ch c1 0%Z in let cs := ch c1 3%Z in
  let Un := q1 1%Z * vx n + q1 2%Z * vy n + q1 3%Z * vz n in
  let V := sqrt (q1 1%Z ^ 2 + q1 2%Z ^ 2 + q1 3%Z ^ 2) in
  let Ht := cs ^ 2 / (gamma - 1) + 5/10 * V ^ 2 in
  let Jm := - Un + 2 * cs / (gamma - 1) in
  let aq := 1 + 2 / (gamma - 1) in let bq := - 2 * Jm in
  let cq := (gamma - 1) * (5/10 * Jm ^ 2 - Ht) in
  let t1 := - bq / (2 * aq) in let t2 := sqrt (bq ^ 2 - 4 * aq * cq) / (2 * aq) in
  let cb := Rmax (t1 + t2) (t1 - t2) in
  let Vb := 2 * cb / (gamma - 1) - Jm in (gamma, Vb, Vb / cb).
Definition rotate (M : Z -> Z -> R) (u v w : R) : R * R * R :=
  (M 0%Z 0%Z * u + M 0%Z 1%Z * v + M 0%Z 2%Z * w, M 1%Z 0%Z * u + M 1%Z 1%Z * v + M 1%Z 2%Z * w, M 2%Z 0%Z * u + M 2%Z 1%Z * v + M 2%Z 2%Z * w).
(** what the first loop of terms "euler" writes in the halo cell c0: n the face normal of the loop, bv = qBcVals(a,b,.), c1 and c2 the cells
    of the first and of the current second interior slice.
    walls.cpp:56-80, 188-213, 281-306, 412-437, 543-568, 658-683; exits.cpp:49-81, 152-189; inlets.cpp:27-53, 177-190, 238-264, 379-433;
    periodics.cpp:25-59, 112-146 *)
Definition eulerCell (k : bcKind) (ne plus : Z) (fd : faceData) (n : vec) (bv : Z -> R) (c1 c2 c0 : cell) : cell :=
  let q0 := cq c0 in let q1 := cq c1 in let q2 := cq c2 in
  let inner := fun f : Z -> R => fun l => if ((0 <=? l) && (l <? ne))%Z%bool then f l else q0 l in
  match k with
  | adiabaticNoSlipWall | adiabaticSlipWall | adiabaticMovingWall => setCq (wallEuler false ne n bv q1 q0) c0
  | isoTNoSlipWall | isoTSlipWall | isoTMovingWall => setCq (wallEuler true ne n bv q1 q0) c0
  | constantVelocitySubsonicInlet => setCq (inner (fun l => if (l =? 0)%Z then 2 * q1 0%Z - q2 0%Z else bv l)) c0
  | supersonicInlet => setCq (inner bv) c0
  | constantMassFluxSubsonicInlet => setCq (inner (withVel (fun l => if (l =? 0)%Z then 2 * q1 0%Z - q2 0%Z else bv l) 0 0 0)) c0
  | stagnationSubsonicInlet =>
      let '(gamma, Vb, Mb) := stagnation n c1 in
      setCq (inner (withVel (fun l => if (l =? 0)%Z then bv 0%Z * Rpower (1 + (gamma - 1) / 2 * Mb ^ 2) (- gamma / (gamma - 1))
                                      else if (l =? 4)%Z then bv 4%Z / (1 + (gamma - 1) / 2 * Mb ^ 2) else bv l)
                            (Vb * vx n) (Vb * vy n) (Vb * vz n))) c0
  | constantPressureSubsonicExit =>
      let '(u, v, w) := exitVel n plus q1 q2 in
      setCq (inner (withVel (fun l => if (l =? 0)%Z then bv 0%Z else q1 l) u v w)) c0
  | supersonicExit =>
      let '(u, v, w) := exitVel n plus q1 q2 in
      setCq (inner (withVel (fun l => if (l =? 0)%Z then Rmin (Rmax 0 (2 * q1 0%Z - q2 0%Z)) (q1 0%Z)
                                      else if (l =? 4)%Z then Rmax 0 (2 * q1 4%Z - q2 4%Z)
                                      else Rmax 0 (Rmin 1 (2 * q1 l - q2 l))) u v w)) c0
  | periodicRotHigh | periodicRotLow =>
      let '(u, v, w) := rotate (match k with periodicRotHigh => f_up fd | _ => f_down fd end) (q0 1%Z) (q0 2%Z) (q0 3%Z) in
      mkCell (withVel (cQ c0) (u * cQ c0 0%Z) (v * cQ c0 0%Z) (w * cQ c0 0%Z)) (withVel q0 u v w) (ch c0)
  | nullBc => c0
  end.
(** the normal the loop reads: of the face itself (walls.cpp:34-53 etc.), except inlets.cpp:373-375, which always reads inx, iny, inz *)
Definition loopNormal (k : bcKind) (nI nJ nK : Z -> Z -> Z -> vec) (nface : Z) : Z -> Z -> Z -> vec :=
  match k with
  | stagnationSubsonicInlet => nI
  | _ => if ((nface =? 1) || (nface =? 2))%Z%bool then nI else if ((nface =? 3) || (nface =? 4))%Z%bool then nJ else nK
  end.
(** a loop over slice s *)
Definition forSlice (d : dims) (ng nface s : Z) (f : Z -> Z -> cell -> cell) (blk : field) : field := fun i j k =>
  let '(s', a, b) := faceCoord nface i j k in let '(e0, e1) := sliceExt d ng nface in
  if ((s' =? s) && (0 <=? a) && (a <? e0) && (0 <=? b) && (b <? e1))%Z%bool then f a b (blk i j k) else blk i j k.
(** the loop over the halo layers: the indices are changed cumulatively (firstHaloIdx -= plus * g; secondInteriorCellIdx += plus * g) *)
Definition layers (ng plus h s2 : Z) (body : Z -> Z -> field -> field) (blk : field) : field * Z * Z :=
  fold_left (fun st g => let '(blk, h, s2) := st in let h := (h - plus * g)%Z in let s2 := (s2 + plus * g)%Z in (body h s2 blk, h, s2))
            (zrange 0 ng) (blk, h, s2).
(** eos(b, th, nface, "prims") over getRange3: a cell-wise function *)
Definition eosOver (eos : cell -> cell) (d : dims) (ng nface : Z) (blk : field) : field := fun i j k =>
  match getRange3 d ng nface 0 0 0 with None => blk i j k | Some r => if inRange r i j k then eos (blk i j k) else blk i j k end.
(** inlets.cpp:289-320: velocities, momentum and kinetic energy set from the target mass flux bQ = QBcVals(a,b,.) *)
Definition massCell (bQ : Z -> R) (c2 c0 : cell) : cell :=
  let rho := cQ c0 0%Z in
  let u := 4 * bQ 1%Z / (rho + cQ c2 0%Z) - cq c2 1%Z in
  let v := 4 * bQ 2%Z / (rho + cQ c2 0%Z) - cq c2 2%Z in
  let w := 4 * bQ 3%Z / (rho + cQ c2 0%Z) - cq c2 3%Z in
  let tke := 5/10 * (u ^ 2 + v ^ 2 + w ^ 2) * rho in
  mkCell (fun l => if (l =? 4)%Z then cQ c0 4%Z + tke else withVel (cQ c0) (u * rho) (v * rho) (w * rho) l) (withVel (cq c0) u v w) (ch c0).
(** bcFunc(blk, face, eos, th, "euler", tme); None is the exception for an unknown face number.  cubicSplineSubsonicInlet is
    constantVelocitySubsonicInlet after [splineCall] below. *)
Definition bcEuler (k : bcKind) (eos : cell -> cell) (d : dims) (ng ne nface : Z) (fd : faceData) (nI nJ nK : Z -> Z -> Z -> vec) (blk : field) : option field :=
  match k with
  | nullBc => Some blk
  | _ =>
    match getFaceSliceIdxs d ng nface with
    | None => None
    | Some (h, s1, bf, plus) =>
      let n := slice (loopNormal k nI nJ nK nface) nface bf in
      let '(blk1, h1, s21) := layers ng plus h (s1 + plus) (fun h s2 blk =>
           forSlice d ng nface h (fun a b c0 => eulerCell k ne plus fd (n a b) (f_qBc fd a b) (slice blk nface s1 a b) (slice blk nface s2 a b) c0) blk) blk in
      match k with
      | periodicRotLow | periodicRotHigh => Some blk1
      | constantMassFluxSubsonicInlet =>
          let blk2 := eosOver eos d ng nface blk1 in
          (* inlets.cpp:276-278 *)
          let h2 := (h1 + plus * (ng - 1))%Z in let s22 := (s21 - plus * (ng - 1) - plus)%Z in
          let '(blk3, _, _) := layers ng plus h2 s22 (fun h s2 blk =>
             forSlice d ng nface h (fun a b c0 => massCell (f_QBc fd a b) (slice blk nface s2 a b) c0) blk) blk2 in Some blk3
      | _ => Some (eosOver eos d ng nface blk1)
      end
    end
  end.
(** bcFunc(.., "preDqDxyz", ..): only the no-slip and moving walls do anything (walls.cpp:83-100, 309-325, 440-457, 686-703) *)
Definition preCell (k : bcKind) (bv : Z -> R) (c1 c0 : cell) : cell :=
  let q0 := cq c0 in let q1 := cq c1 in
  match k with
  | adiabaticNoSlipWall | isoTNoSlipWall => setCq (withVel q0 (- q1 1%Z) (- q1 2%Z) (- q1 3%Z)) c0
  | adiabaticMovingWall | isoTMovingWall => setCq (withVel q0 (2 * bv 1%Z - q1 1%Z) (2 * bv 2%Z - q1 2%Z) (2 * bv 3%Z - q1 3%Z)) c0
  | _ => c0
  end.
Definition bcPre (k : bcKind) (d : dims) (ng nface : Z) (fd : faceData) (blk : field) : option field :=
  match k with
  | nullBc => Some blk
  | _ =>
    match getFaceSliceIdxs d ng nface with
    | None => None
    | Some (h, s1, bf, plus) =>
      Some (fst (fst (layers ng plus h (s1 + plus) (fun h _ blk =>
           forSlice d ng nface h (fun a b c0 => preCell k (f_qBc fd a b) (slice blk nface s1 a b) c0) blk) blk)))
    end
  end.
(** bcFunc(.., "postDqDxyz", ..): the gradient (dqdx, dqdy, dqdz) of variable l in the first halo slice, from the halo's g0 and the interior g1
    (walls.cpp:101-147, 215-240, 326-371, 458-502, 571-617, 704-747; exits.cpp:83-107, 191-216; inlets.cpp:55-79, 192-217, 322-347, 436-461;
    periodics.cpp:60-93, 147-180) *)
Definition postVal (k : bcKind) (fd : faceData) (l : Z) (g1 g0 : vec) : vec :=
  let neg := (- vx g1, - vy g1, - vz g1) in
  match k with
  | adiabaticNoSlipWall | adiabaticMovingWall => if ((1 <=? l) && (l <=? 3))%Z%bool then g1 else neg
  | isoTNoSlipWall | isoTMovingWall => if ((1 <=? l) && (l <=? 4))%Z%bool then g1 else neg
  | adiabaticSlipWall => neg
  | isoTSlipWall => if (l =? 4)%Z then g1 else neg
  | periodicRotHigh => rotate (f_up fd) (vx g0) (vy g0) (vz g0)
  | periodicRotLow => rotate (f_down fd) (vx g0) (vy g0) (vz g0)
  | nullBc => g0
  | _ => g1
  end.
Definition gradField := Z -> Z -> Z -> Z -> vec.
Definition bcPost (k : bcKind) (d : dims) (ng ne nface : Z) (fd : faceData) (G : gradField) : option gradField :=
  match k with
  | nullBc => Some G
  | _ =>
    match getFaceSliceIdxs d ng nface with
    | None => None
    | Some (h, s1, bf, plus) => Some (fun i j kk l =>
        let '(s', a, b) := faceCoord nface i j kk in let '(e0, e1) := sliceExt d ng nface in
        if ((s' =? h) && (0 <=? a) && (a <? e0) && (0 <=? b) && (b <? e1) && (0 <=? l) && (l <? ne))%Z%bool
        then postVal k fd l (slice G nface s1 a b l) (G i j kk l) else G i j kk l)
    end
  end.

(** prep_constantMassFluxSubsonicInlet (prepInlets.py:141-174): QBcVals(a,b,1..3).  s1_ is index ng on a low face and index -(ng+1), counted
    from the end of the array of the face's normals, on a high face (solverFace.py:27-50). *)
Definition massTarget (d : dims) (ng nface : Z) (nI nJ nK : Z -> Z -> Z -> vec) (mDot : R) (a b l : Z) : R :=
  let s1 := fun len : Z => (if Z.odd nface then ng else len + 2 * ng - (ng + 1))%Z in
  let n := if ((nface =? 1) || (nface =? 2))%Z%bool then nI (s1 (ni d)) a b
           else if ((nface =? 3) || (nface =? 4))%Z%bool then nJ a (s1 (nj d)) b else nK a b (s1 (nk d)) in
  let sg := if Z.odd nface then 1 else -1 in
  if (l =? 1)%Z then sg * vx n * mDot else if (l =? 2)%Z then sg * vy n * mDot else if (l =? 3)%Z then sg * vz n * mDot else 0.

(** * gridFace.py:24-71.  The span is in degrees; [axis] is used as given. *)
Definition rotMatrix (axis : vec) (th : R) : Z -> Z -> R := fun r c =>
  let ct := cos th in let st := sin th in let ux := vx axis in let uy := vy axis in let uz := vz axis in
  if (r =? 0)%Z then (if (c =? 0)%Z then ct + ux ^ 2 * (1 - ct) else if (c =? 1)%Z then ux * uy * (1 - ct) - uz * st else ux * uz * (1 - ct) + uy * st)
  else if (r =? 1)%Z then (if (c =? 0)%Z then uy * ux * (1 - ct) + uz * st else if (c =? 1)%Z then ct + uy ^ 2 * (1 - ct) else uy * uz * (1 - ct) - ux * st)
  else (if (c =? 0)%Z then uz * ux * (1 - ct) - uy * st else if (c =? 1)%Z then uz * uy * (1 - ct) + ux * st else ct + uz ^ 2 * (1 - ct)).
(** rotUp and rotDown; None when the span is missing (gridFace.py:31-33) *)
Definition periodicMatrices (span : option R) (axis : vec) : option ((Z -> Z -> R) * (Z -> Z -> R)) :=
  match span with None => None | Some s => let th := s * PI / 180 in Some (rotMatrix axis th, rotMatrix axis (- th)) end.

(** * cubicSplineSubsonicInlet (inlets.cpp:83-155).  [Rfloor x] is std::floor; int is an unbounded integer (Simplification: no overflow of
    int(tme/intervalDt)); C's % is Z.rem and static_cast<int> truncates towards zero. *)
Definition Rfloor (x : R) : Z := Int_part x.
Definition Rtrunc (x : R) : Z := if Rle_dec 0 x then Rfloor x else (- Rfloor (- x))%Z.
(** what a face remembers between calls: currentInterval (-1 at first, face_.hpp:38) and the coefficients intervalAlphas(k,a,b,component) of that interval *)
Record splineState := mkSpline { s_cur : Z; s_alphas : Z -> Z -> Z -> Z -> R }.
(** inlets.cpp:91-151: the face's memory and qBcVals after the call at time tme; cubic k interval a b component are the coefficients of all intervals;
    ext = extents of the face arrays *)
Definition splineCall (ext : Z * Z) (cubic : Z -> Z -> Z -> Z -> Z -> R) (total : Z) (dt tme : R) (st : splineState * (Z -> Z -> Z -> R)) : splineState * (Z -> Z -> Z -> R) :=
  let '(s, bv) := st in
  let cur := Z.rem (Rfloor (tme / dt)) total in
  let s := if (cur =? s_cur s)%Z then s else mkSpline cur (fun k a b m => cubic k cur a b m) in
  let interpTime := tme - IZR (Rtrunc (tme / dt / IZR total) * total) * dt in
  let t := interpTime - dt * IZR (s_cur s) in
  (s, fun a b l =>
   if ((0 <=? a) && (a <? fst ext - 1) && (0 <=? b) && (b <? snd ext - 1) && (1 <=? l) && (l <=? 3))%Z%bool
   then s_alphas s 0%Z a b (l - 1)%Z * t ^ 3 + s_alphas s 1%Z a b (l - 1)%Z * t ^ 2 + s_alphas s 2%Z a b (l - 1)%Z * t + s_alphas s 3%Z a b (l - 1)%Z
   else bv a b l).
(** the boundary condition is called again and again, at any sequence of times *)
Definition splineCalls (ext : Z * Z) cubic (total : Z) (dt : R) (times : list R) (st : splineState * (Z -> Z -> Z -> R)) : splineState * (Z -> Z -> Z -> R) :=
  fold_left (fun st tme => splineCall ext cubic total dt tme st) times st.
