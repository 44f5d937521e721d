(** Model of utilities/copyRotateSectorGrid.py (the script body).  Definitions only.
    Exceptions are [None].  Simplifications: command-line parsing and file input/output are not
    modelled; a block is its connectivity (M_Topology.block), its point counts and its points;
    the tolerance of the 360-degree test is exact over the reals. *)
From Coq Require Import ZArith String Ascii List Bool Reals.
From Verif Require Import M_Topology M_Grid M_Cut.
Import ListNotations.
Open Scope Z_scope.

Record secBlock := mkSec {
  conn : block;
  counts : Z * Z * Z;
  coord : Z -> Z -> Z -> vec }.

(** Numbers of the blocks having a face of the given type, in order of discovery
    (copyRotateSectorGrid.py:91-116). *)
Definition sideOf (t : string) (from : list block) : list Z :=
  flat_map (fun b => flat_map (fun f => if String.eqb (bcType f) t then [nblki b] else []) (faces b)) from.
Definition lowside := sideOf "periodicRotLow".
Definition highside := sideOf "periodicRotHigh".

Definition memZ (n : Z) (l : list Z) : bool := existsb (Z.eqb n) l.

(** A neighbour number plus an offset; [None + int] cannot occur where it is used. *)
Definition offset (v : option Z) (d : Z) : option Z := option_map (fun n => n + d) v.

(** copyRotateSectorGrid.py:163-199: one face of block [b] in copy number [i] (0 = the first
    rotated copy).  A new face starts as adiabaticNoSlipWall without neighbour. *)
Definition rotatedFace (nblks nseg i : Z) (low high : list Z) (b : block) (f : face) : option face :=
  match neighbor f with
  | None => Some (mkFace (nface f) (bcFam f) (bcType f) None None)
  | Some _ =>
    if isPeriodic (bcType f) then
      if memZ (nblki b) low then
        Some (mkFace (nface f) None "b0" (offset (neighbor f) (nblks * i)) (orientation f))
      else if memZ (nblki b) high then
        if i =? nseg - 2 then
          Some (mkFace (nface f) (bcFam f) "periodicRotHigh" (neighbor f) (orientation f))
        else Some (mkFace (nface f) None "b0" (offset (neighbor f) (nblks * (i + 2))) (orientation f))
      else Some (mkFace (nface f) (bcFam f) "adiabaticNoSlipWall" None (orientation f))
    else if String.eqb (bcType f) "b0" then
      Some (mkFace (nface f) None "b0" (offset (neighbor f) (nblks * (i + 1))) (orientation f))
    else None
  end.

(** copyRotateSectorGrid.py:208-238, the face of the original sector: [f] is both the source and
    the copy made at 104-108. *)
Definition finishFirst (nblks nseg : Z) (is360 : bool) (low high : list Z) (b : block) (f : face) : face :=
  if memZ (nblki b) low then
    if String.eqb (bcType f) "periodicRotLow" then
      let nb := offset (neighbor f) (nblks * (nseg - 1)) in
      if is360 then mkFace (nface f) None "b0" nb (orientation f)
      else mkFace (nface f) (bcFam f) (bcType f) nb (orientation f)
    else f
  else if memZ (nblki b) high then
    if String.eqb (bcType f) "periodicRotHigh" then
      mkFace (nface f) None "b0" (offset (neighbor f) nblks) (orientation f)
    else f
  else f.

(** copyRotateSectorGrid.py:231-238, the face [g] of the last sector, copied from [f]. *)
Definition finishLast (is360 : bool) (low high : list Z) (b : block) (f g : face) : face :=
  if memZ (nblki b) low then g
  else if memZ (nblki b) high then
    if String.eqb (bcType f) "periodicRotHigh" then
      if is360 then mkFace (nface g) None "b0" (neighbor g) (orientation g) else g
    else g
  else g.

Fixpoint allSome {A} (l : list (option A)) : option (list A) :=
  match l with
  | [] => Some []
  | Some a :: r => match allSome r with Some t => Some (a :: t) | None => None end
  | None :: _ => None
  end.

(** The face of block [b] in sector [s] (0 .. nseg-1) of the result. *)
Definition sectorFace (nblks nseg : Z) (is360 : bool) (low high : list Z) (s : Z) (b : block) (f : face)
  : option face :=
  if s =? 0 then Some (finishFirst nblks nseg is360 low high b f)
  else
    match rotatedFace nblks nseg (s - 1) low high b f with
    | None => None
    | Some g => Some (if s =? nseg - 1 then finishLast is360 low high b f g else g)
    end.

(** copyRotateSectorGrid.py:136-137,153-159: block [j] of the sector becomes block s*nblks + j,
    rotated by [s] times the sector angle (118-134: the matrix of M_Grid.rotate, with the axis as
    given). *)
Definition sectorBlock (nblks nseg : Z) (is360 : bool) (low high : list Z) (angle : R) (ax : vec)
    (s : Z) (b : secBlock) : option secBlock :=
  match allSome (map (sectorFace nblks nseg is360 low high s (conn b)) (faces (conn b))) with
  | None => None
  | Some fs =>
    Some (mkSec (mkBlock (s * nblks + nblki (conn b)) fs) (counts b)
           (if s =? 0 then coord b
            else fun i j k => rotate ax (angle * IZR s * PI / 180)%R (coord b i j k)))
  end.

(** copyRotateSectorGrid.py:202-205. *)
Definition is360 (nseg : Z) (angle : R) : bool :=
  if Rlt_dec (Rabs (IZR nseg * angle - 360)) (1 / 10 ^ 10) then true else false.

(** The whole script, copyRotateSectorGrid.py:75-238. *)
Definition copyRotate (from : list secBlock) (nseg : Z) (angle : R) (ax : vec) : option (list secBlock) :=
  if nseg <=? 1 then None
  else
    let cs := map conn from in
    let N := Z.of_nat (length from) in
    allSome (flat_map (fun s =>
        map (sectorBlock N nseg (is360 nseg angle) (lowside cs) (highside cs) angle ax s) from)
      (map Z.of_nat (seq 0 (Z.to_nat nseg)))).
