(** Model of src/peregrinepy/grid/create.py (cube, annulus, connectivity) and
    grid/generateHalo.py.  Definitions only.

    Simplification common to all numerical files: floating-point numbers are real numbers (exact
    arithmetic); NaN, infinities and rounding are not modelled.  np.linspace is modelled in exact
    arithmetic with its special treatment of the last point. *)
From Coq Require Import Reals ZArith String List Bool.
From Verif Require Import M_Topology M_Halo.
Import ListNotations.
Open Scope Z_scope.

(** ** create.py:14-120  cubicConnectivity *)

(** What one branch of cubicConnectivity stores on a face.  The non-periodic boundary branch keeps
    bcFam (it does not assign it); so do the interior branches. *)
Definition setBoundary (f : face) : face := mkFace (nface f) (bcFam f) "adiabaticNoSlipWall" None None.
Definition setInterior (f : face) (nb : Z) : face := mkFace (nface f) (bcFam f) "b0" (Some nb) (Some "123"%string).
Definition setPeriodic (f : face) (ty fam : string) (nb : Z) : face :=
  mkFace (nface f) (Some fam) ty (Some nb) (Some "123"%string).

Definition cubicFace (m : Z * Z * Z) (blkNum i j k : Z) (pI pJ pK : bool) (f : face) : face :=
  let m0 := fst (fst m) in let m1 := snd (fst m) in let m2 := snd m in
  match nface f with
  | 1 => if i =? 0 then (if pI then setPeriodic f "periodicTransLow" "periodic_I" (blkNum + (m0 - 1)) else setBoundary f)
         else setInterior f (blkNum - 1)                                     (* create.py:17-33 *)
  | 2 => if i =? m0 - 1 then (if pI then setPeriodic f "periodicTransHigh" "periodic_I" (blkNum - (m0 - 1)) else setBoundary f)
         else setInterior f (blkNum + 1)                                     (* create.py:35-50 *)
  | 3 => if j =? 0 then (if pJ then setPeriodic f "periodicTransLow" "periodic_J" (blkNum + m0 * (m1 - 1)) else setBoundary f)
         else setInterior f (blkNum - m0)                                    (* create.py:52-68 *)
  | 4 => if j =? m1 - 1 then (if pJ then setPeriodic f "periodicTransHigh" "periodic_J" (blkNum - m0 * (m1 - 1)) else setBoundary f)
         else setInterior f (blkNum + m0)                                    (* create.py:70-85 *)
  | 5 => if k =? 0 then (if pK then setPeriodic f "periodicTransLow" "periodic_K" (blkNum + m0 * m1 * (m2 - 1)) else setBoundary f)
         else setInterior f (blkNum - m0 * m1)                               (* create.py:87-103 *)
  | 6 => if k =? m2 - 1 then (if pK then setPeriodic f "periodicTransHigh" "periodic_K" (blkNum - m0 * m1 * (m2 - 1)) else setBoundary f)
         else setInterior f (blkNum + m0 * m1)                               (* create.py:105-120 *)
  | _ => f
  end.
(* blk.getFace(1) .. blk.getFace(6) are the six entries of blk.faces, create.py:19-106 *)
Definition cubicConnectivity (m : Z * Z * Z) (blkNum i j k : Z) (pI pJ pK : bool) (fs : list face) : list face :=
  map (cubicFace m blkNum i j k pI pJ pK) fs.

(** ** Grid blocks: number, node counts, coordinates and faces with periodic data
    (gridBlock.py, gridFace.py). *)
Record gface := mkGFace { gf_face : face; gf_span : option R; gf_axis : option (R * R * R) }.
Record gblock := mkGBlock { gb_num : Z; gb_dims : dims;
                            gb_x : array3 R; gb_y : array3 R; gb_z : array3 R; gb_faces : list gface }.

Open Scope R_scope.
(** np.linspace(a, b, n): a + i*(b-a)/(n-1), the last point set to b exactly (create.py:157-159,221-223). *)
Definition linspace (a b : R) (n : Z) (i : Z) : R :=
  if (n <=? 1)%Z then a
  else if (i =? n - 1)%Z then b
  else IZR i * ((b - a) / IZR (n - 1)) + a.

(** create.py:123-171 (non-solver block: no halo offset). *)
Definition cube (b : gblock) (o l : R * R * R) (d : dims) : gblock :=
  let '(ox, oy, oz) := o in let '(lx, ly, lz) := l in
  mkGBlock (gb_num b) d
    (fun i _ _ => linspace ox (ox + lx) (ni d) i)
    (fun _ j _ => linspace oy (oy + ly) (nj d) j)
    (fun _ _ k => linspace oz (oz + lz) (nk d) k)
    (gb_faces b).

(* create.py:253-268; face.bcType.startswith("periodicTrans") *)
Definition isPeriodicTrans (s : string) : bool := String.prefix "periodicTrans" s.
Definition setPeriodicInfo (l : R * R * R) (f : gface) : gface :=
  let '(lx, ly, lz) := l in
  if isPeriodicTrans (bcType (gf_face f)) then
    if existsb (Z.eqb (nface (gf_face f))) [1; 2]%Z then mkGFace (gf_face f) (Some lx) (Some (1, 0, 0))
    else if existsb (Z.eqb (nface (gf_face f))) [3; 4]%Z then mkGFace (gf_face f) (Some ly) (Some (0, 1, 0))
    else if existsb (Z.eqb (nface (gf_face f))) [5; 6]%Z then mkGFace (gf_face f) (Some lz) (Some (0, 0, 1))
    else f
  else f.

(** One pass of the triple loop of multiBlockCube, create.py:225-268.  The body rebinds [origin] and
    [lengths] (233-238), so the periodic span is the length of the block. *)
Definition blkNumber (m : Z * Z * Z) (i j k : Z) : Z :=
  (k * snd (fst m) * fst (fst m) + j * fst (fst m) + i)%Z.                    (* create.py:228 *)

Definition cubeBlock (o l : R * R * R) (m : Z * Z * Z) (d : dims) (per : bool * bool * bool)
           (i j k : Z) (b : gblock) : gblock :=
  let '(ox, oy, oz) := o in let '(lx, ly, lz) := l in let '(m0, m1, m2) := m in
  let '(pI, pJ, pK) := per in
  let bx := linspace ox (ox + lx) (m0 + 1) in
  let by_ := linspace oy (oy + ly) (m1 + 1) in
  let bz := linspace oz (oz + lz) (m2 + 1) in
  let origin := (bx i, by_ j, bz k) in
  let lengths := (bx (i + 1)%Z - bx i, by_ (j + 1)%Z - by_ j, bz (k + 1)%Z - bz k) in
  let n := blkNumber m i j k in
  let b1 := cube (mkGBlock n (gb_dims b) (gb_x b) (gb_y b) (gb_z b) (gb_faces b)) origin lengths d in
  let fs := map (fun f => mkGFace (cubicFace m n i j k pI pJ pK (gf_face f)) (gf_span f) (gf_axis f)) (gb_faces b1) in
  mkGBlock n (gb_dims b1) (gb_x b1) (gb_y b1) (gb_z b1) (map (setPeriodicInfo lengths) fs).

(* mb[blkNum] is updated in place; IndexError = None (cannot occur when prod(mbDims) = nblks) *)
Definition updateAt {A} (l : list A) (n : Z) (f : A -> A) : option (list A) :=
  if ((0 <=? n) && (n <? Z.of_nat (length l)))%Z
  then match nth_error l (Z.to_nat n) with Some a => Some (set_nth l (Z.to_nat n) (f a)) | None => None end
  else None.

(* the loop nest: k outermost, then j, then i, create.py:225-227 *)
Definition triples3 (m : Z * Z * Z) : list (Z * Z * Z) :=
  flat_map (fun k => flat_map (fun j => map (fun i => (i, j, k)) (zrange 0 (fst (fst m)))) (zrange 0 (snd (fst m))))
           (zrange 0 (snd m)).

Definition multiBlockCube (mb : list gblock) (o l : R * R * R) (m : Z * Z * Z) (d : dims) (per : bool * bool * bool)
  : option (list gblock) :=
  if (fst (fst m) * snd (fst m) * snd m =? Z.of_nat (length mb))%Z then
    fold_left (fun acc c => match acc with
                            | None => None
                            | Some mb => let '(i, j, k) := c in
                                         updateAt mb (blkNumber m i j k) (cubeBlock o l m d per i j k)
                            end) (triples3 m) (Some mb)
  else None.                                                                   (* create.py:214-217 *)

(** ** annulus, create.py:276-393 *)
Definition vec := (R * R * R)%type.
Definition vx (v : vec) := fst (fst v). Definition vy (v : vec) := snd (fst v). Definition vz (v : vec) := snd v.
Definition vadd (a b : vec) : vec := (vx a + vx b, vy a + vy b, vz a + vz b).
Definition vsub (a b : vec) : vec := (vx a - vx b, vy a - vy b, vz a - vz b).
Definition vscale (s : R) (a : vec) : vec := (s * vx a, s * vy a, s * vz a).
Definition dot (a b : vec) : R := vx a * vx b + vy a * vy b + vz a * vz b.
Definition norm (a : vec) : R := sqrt (dot a a).

(** The rotation written out at create.py:375-385 and 491-501. *)
Definition rotate (n : vec) (theta : R) (p : vec) : vec :=
  let ct := cos theta in let st := sin theta in
  ((ct + (1 - ct) * vx n * vx n) * vx p + ((1 - ct) * vx n * vy n - vz n * st) * vy p + ((1 - ct) * vx n * vz n + vy n * st) * vz p,
   ((1 - ct) * vx n * vy n + vz n * st) * vx p + (ct + (1 - ct) * vy n * vy n) * vy p + ((1 - ct) * vy n * vz n - vx n * st) * vz p,
   ((1 - ct) * vx n * vz n - vy n * st) * vx p + ((1 - ct) * vy n * vz n + vx n * st) * vy p + (ct + (1 - ct) * vz n * vz n) * vz p).

Definition Rgtb (a b : R) : bool := if Rlt_dec b a then true else false.

(** annulus: [p1] is ignored (overwritten by the origin, create.py:321).  None = ValueError.
    The result is the node array as a function to points. *)
Definition annulus (p1 p2 p3 : vec) (sweep thickness : R) (d : dims) : option (Z -> Z -> Z -> vec) :=
  if Rgtb (Rabs (dot p2 p3)) (/ 10000000) then None                             (* 325-326 *)
  else if orb (Rgtb (-360) (Rabs sweep)) (Rgtb (Rabs sweep) 360) then None      (* 328-329 *)
  else
    let n12 := vscale (/ norm p2) p2 in
    let n13 := vscale (/ norm p3) p3 in
    let dx := norm p2 / IZR (ni d - 1) in
    let dr := thickness / IZR (nj d - 1) in
    let dtheta := sweep / IZR (nk d - 1) in
    let base := fun i j => vadd (vadd p3 (vscale (dx * IZR i) n12)) (vscale (dr * IZR j) n13) in  (* 355 *)
    Some (fun i j k => if (k =? 0)%Z then base i j
                       else rotate n12 (IZR k * dtheta * PI / 180) (base i j)).   (* 368-393 *)

(** One block of multiBlockAnnulus, create.py:484-518. *)
Definition annulusBlock (p2 p3 : vec) (sweep thickness : R) (m : Z * Z * Z) (d : dims) (i j k : Z)
  : option (Z -> Z -> Z -> vec) :=
  let n12 := vscale (/ norm p2) p2 in
  let dx := norm p2 / IZR (fst (fst m)) in
  let dr := thickness / IZR (snd (fst m)) in
  let dtheta := sweep / IZR (snd m) in
  let q := rotate n12 (IZR k * dtheta * PI / 180) p3 in
  let n13 := vscale (/ norm q) q in
  let newp1 := vscale (dx * IZR i) n12 in
  let newp2 := vscale (dx * (IZR i + 1)) n12 in
  let newp3 := vadd (vadd q (vscale (dx * IZR i) n12)) (vscale (dr * IZR j) n13) in
  annulus newp1 newp2 newp3 dtheta dr d.

(** multiBlockAnnulus, create.py:456-542, coordinates only (connectivity is cubicConnectivity with
    periodicK); blocks in loop order, None = ValueError. *)
Definition multiBlockAnnulus (nblks : Z) (p2 p3 : vec) (sweep thickness : R) (m : Z * Z * Z) (d : dims)
  : option (list (Z * (Z -> Z -> Z -> vec))) :=
  if negb (fst (fst m) * snd (fst m) * snd m =? nblks)%Z then None
  else if Rgtb (Rabs (dot p2 p3)) (/ 10000000) then None
  else if orb (Rgtb 0 sweep) (Rgtb sweep 360) then None
  else sequence (map (fun c => let '(i, j, k) := c in
                     match annulusBlock p2 p3 sweep thickness m d i j k with
                     | Some f => Some (blkNumber m i j k, f) | None => None end) (triples3 m)).

(** ** generateHalo.py *)
Inductive haxis := AI | AJ | AK.
Definition size (d : dims) (a : haxis) : Z := match a with AI => ni d | AJ => nj d | AK => nk d end.
Definition getA (a : haxis) (i j k : Z) : Z := match a with AI => i | AJ => j | AK => k end.
(** the entry with coordinate [a] replaced by [s] *)
Definition rd {V} (x : array3 V) (a : haxis) (s i j k : Z) : V :=
  match a with AI => x s j k | AJ => x i s k | AK => x i j s end.

Definition inHaloIdx (n ng c : Z) : bool := ((c <? ng) || (n + ng <=? c))%Z.
(** faceMask / edgeMask / cornerMask of the two faces normal to [a], generateHalo.py:25-47: the number
    of tangential indices that lie in the halo is 0 / 1 / 2. *)
Definition tangHalo (d : dims) (ng : Z) (a : haxis) (i j k : Z) : nat :=
  let h b := if inHaloIdx (size d b) ng (getA b i j k) then 1%nat else 0%nat in
  match a with AI => (h AJ + h AK)%nat | AJ => (h AI + h AK)%nat | AK => (h AI + h AJ)%nat end.

(** Source planes.  Low side: s0 = ng-n-1; high side, with Python's negative indices,
    s0 = N-ng+n.  [small] is the test selecting the layer-by-layer variant. *)
Definition loPlanes (ng : Z) (small : bool) (n : Z) : Z * Z * Z :=
  (let s0 := ng - n - 1 in
   if small then (s0, s0 + 1, s0 + 2) else (s0, ng, ng + n + 1))%Z.
Definition hiPlanes (ng N : Z) (small : bool) (n : Z) : Z * Z * Z :=
  (let s0 := N - ng + n in
   if small then (s0, s0 - 1, s0 - 2) else (s0, N - ng - 1, N - ng - n - 2))%Z.

Definition total (d : dims) (ng : Z) (a : haxis) : Z := (size d a + 2 * ng)%Z.

(* generateHalo.py:51-59 *)
Definition zeroHalo (d : dims) (ng : Z) (x : array3 R) : array3 R :=
  fun i j k => if (inHaloIdx (ni d) ng i || inHaloIdx (nj d) ng j || inHaloIdx (nk d) ng k)%bool then 0 else x i j k.

Definition Reqb (a b : R) : bool := if Req_EM_T a b then true else false.

(** One masked plane assignment.  mode 0: faces (64-130); mode 1: edges, averaged when the entry is
    not 0.0 (145-150 etc.); mode 2: corners, running average with the counter [temp] (248-256 etc.). *)
Record hstate := mkH { hx : array3 R; htemp : array3 R }.
Definition planeOp (d : dims) (ng : Z) (mode : nat) (a : haxis) (pl : Z * Z * Z) (s : hstate) : hstate :=
  let '(s0, s1, s2) := pl in
  let x := hx s in let t := htemp s in
  let hit i j k := ((getA a i j k =? s0)%Z && Nat.eqb (tangHalo d ng a i j k) mode)%bool in
  let ext i j k := 2 * rd x a s1 i j k - rd x a s2 i j k in
  mkH (fun i j k =>
         if hit i j k then
           match mode with
           | O => ext i j k
           | 1%nat => if Reqb (x i j k) 0 then ext i j k else (1/2) * x i j k + (1/2) * ext i j k
           | _ => if Reqb (x i j k) 0 then ext i j k
                  else (t i j k / (t i j k + 1)) * x i j k + (1 - (t i j k / (t i j k + 1))) * ext i j k
           end
         else x i j k)
      (fun i j k => if hit i j k then match mode with 2%nat => t i j k + 1 | _ => t i j k end else t i j k).

(** The dimension tested by "n? <= ng" in each section: in the face section faces 4 and 6 test ni
    (generateHalo.py:113,124), everything else tests its own dimension. *)
Definition testDim (d : dims) (mode : nat) (a : haxis) (high : bool) : Z :=
  match mode, high with O, true => ni d | _, _ => size d a end.

Definition faceSweep (d : dims) (ng : Z) (mode : nat) (a : haxis) (high : bool) (s : hstate) : hstate :=
  fold_left (fun s n =>
     let small := (testDim d mode a high <=? ng)%Z in
     planeOp d ng mode a (if high then hiPlanes ng (total d ng a) small n else loPlanes ng small n) s)
   (zrange 0 ng) s.

(* faces 1,3,5,2,4,6 in that order in each section *)
Definition section (d : dims) (ng : Z) (mode : nat) (s : hstate) : hstate :=
  fold_left (fun s f => faceSweep d ng mode (fst f) (snd f) s)
    [(AI, false); (AJ, false); (AK, false); (AI, true); (AJ, true); (AK, true)] s.

Definition generateHalo (d : dims) (ng : Z) (x : array3 R) : array3 R :=
  let s0 := mkH (zeroHalo d ng x) (fun _ _ _ => 0) in
  let s1 := section d ng 0 s0 in
  let s2 := section d ng 1 s1 in
  let s3 := section d ng 2 (mkH (hx s2) (fun _ _ _ => 0)) in      (* temp = np.zeros, line 236 *)
  hx s3.
