(** The boundary-layer and channel grid utility: utilities/boundaryLayerGrid.py.  Definitions only.  Exact reals; a failed assertion or a
    Python exception is None.  The while loops take a bound on the number of passes (fuel); running out of it is None. *)
From Coq Require Import Reals ZArith List Bool.
From Verif Require Import M_Halo M_Grid.
Import ListNotations.
Open Scope R_scope.

(** Python's int(x) *)
Definition pyInt (x : R) : Z := if Rle_dec 0 x then Int_part x else (- Int_part (- x))%Z.

(** the loop of ptsWithGR (boundaryLayerGrid.py:56-60); the list is kept newest first *)
Fixpoint growLoop (fuel : nat) (stop gr : R) (pts : list R) (dY : R) : option (list R) :=
  match fuel, pts with
  | S f, p :: _ => if Rlt_dec p stop then growLoop f stop gr (p + dY :: pts) (dY * gr) else Some pts
  | _, _ => None
  end.
(** ptsWithGR (boundaryLayerGrid.py:51-67) *)
Definition ptsWithGR (fuel : nat) (start stop gr startDy : R) : option (list R) :=
  if Rlt_dec start stop then if Rlt_dec 0 start then if Rlt_dec 1 gr then
    match growLoop fuel stop gr [start] (startDy * gr) with
    | Some (a :: b :: l) =>
        let pts := if Rlt_dec (Rabs (b - stop)) (Rabs (a - stop)) then b :: l else a :: b :: l in
        Some (map (fun p => start + (p - start) / (stop - start) * stop) (rev pts))
    | _ => None
    end
  else None else None else None.

(** the loop of growToDy (boundaryLayerGrid.py:75-79) *)
Fixpoint dyLoop (fuel : nat) (endDy gr : R) (pts : list R) (dY : R) : option (list R) :=
  match fuel, pts with
  | S f, p :: _ => if Rlt_dec dY endDy then dyLoop f endDy gr (p + dY :: pts) (dY * gr) else Some pts
  | _, _ => None
  end.
(** growToDy (boundaryLayerGrid.py:70-81) *)
Definition growToDy (fuel : nat) (startDy endDy gr : R) : option (list R) :=
  if Rlt_dec 0 startDy then if Rlt_dec startDy endDy then if Rlt_dec 1 gr then
    match dyLoop fuel endDy gr [0] (startDy * gr) with Some l => Some (rev l) | None => None end
  else None else None else None.

(** the input file (boundaryLayerGrid.py:23-48); None: "default".  A domainType that is neither word raises ValueError *)
Inductive domain := Channel | Bl.
Record blInput := mkBl { bDomain : domain; bDelta : R; bZWidth : R; bYHeight : R; bXLength : R; bVisc : R; bReTau : R;
  bNVSL : option Z; bBuffGR : option R; bLogGR : option R; bDYcore : option R; bDXplus : option R; bDZplus : option R }.
Definition orElse {X} (o : option X) (d : X) : X := match o with Some x => x | None => d end.
(** defaults: lines 113-118 *)
Definition nVSLOf (b : blInput) : Z := orElse (bNVSL b) 6%Z.
Definition buffGROf (b : blInput) : R := orElse (bBuffGR b) (11/10).
Definition logGROf (b : blInput) : R := orElse (bLogGR b) (11/10).
Definition dYcoreOf (b : blInput) : R := orElse (bDYcore b) 20.
Definition dXplusOf (b : blInput) : R := orElse (bDXplus b) 20.
Definition dZplusOf (b : blInput) : R := orElse (bDZplus b) 20.
(** lines 121-125 *)
Definition utau (b : blInput) : R := bReTau b * bVisc b / bDelta b.
Definition yp1 (b : blInput) : R := bVisc b / utau b.
(** last two entries of a list: a[-1], a[-2] *)
Definition lastTwo (l : list R) : option (R * R) := match rev l with a :: b :: _ => Some (a, b) | _ => None end.
(** endYplus: lines 162-167 *)
Definition endYplus (b : blInput) : R := match bDomain b with Channel => bDelta b / yp1 b | Bl => bYHeight b / yp1 b end.

(** the four layers in y+ units (boundaryLayerGrid.py:127-171): viscous sublayer, buffer, log, core *)
Record layers := mkLayers { lVSL : list R; lBuff : list R; lLog : list R; lCore : list R }.
Definition layersOf (fuel : nat) (b : blInput) : option layers :=
  let n := nVSLOf b in
  if (2 <? n)%Z then
    let yVSL := map (linspace 0 5 n) (zrange 0 n) in
    if Rlt_dec 1 (buffGROf b) then
      match lastTwo yVSL with
      | Some (v1, v2) =>
          match ptsWithGR fuel 5 30 (buffGROf b) (v1 - v2) with
          | Some yBuff =>
              match lastTwo yBuff with
              | Some (b1, b2) =>
                  match growToDy fuel (b1 - b2) (dYcoreOf b) (logGROf b) with
                  | Some g =>
                      let yLog := map (fun p => b1 + p) g in
                      let top := last yLog 0 in
                      let nCore := pyInt ((endYplus b - top) / dYcoreOf b) in
                      if (nCore <? 0)%Z then None
                      else Some (mkLayers yVSL yBuff yLog (map (linspace top (endYplus b) nCore) (zrange 0 nCore)))
                  | None => None
                  end
              | None => None
              end
          | None => None
          end
      | None => None
      end
    else None
  else None.
(** totalYs before mirroring (line 174) *)
Definition halfYs (l : layers) : list R := lVSL l ++ removelast (tl (lBuff l)) ++ removelast (lLog l) ++ lCore l.
(** totalYs (lines 174-179): 2 * totalYs[-1] - flip(totalYs)[1:] *)
Definition totalYs (b : blInput) (l : layers) : list R :=
  match bDomain b with
  | Channel => halfYs l ++ map (fun y => 2 * last (halfYs l) 0 - y) (tl (rev (halfYs l)))
  | Bl => halfYs l
  end.
(** Lx, Lz, nx, nz (lines 184-191) *)
Definition Lx (b : blInput) : R := bXLength b * bDelta b.
Definition Lz (b : blInput) : R := bZWidth b * bDelta b.
Definition nx (b : blInput) : Z := pyInt (Lx b / (dXplusOf b * yp1 b)).
Definition nz (b : blInput) : Z := pyInt (Lz b / (dZplusOf b * yp1 b)).
(** the block that is written (lines 189-196): x, z from multiBlockCube with one block (create.py:221-245), y overwritten *)
Record blGrid := mkBg { gx : Z -> R; gy : list R; gz : Z -> R; gnx : Z; gnz : Z }.
Definition boundaryLayerGrid (fuel : nat) (b : blInput) : option blGrid :=
  match layersOf fuel b with
  | Some l => Some (mkBg (linspace 0 (0 + Lx b) (nx b)) (map (fun y => y * yp1 b) (totalYs b l)) (linspace 0 (0 + Lz b) (nz b)) (nx b) (nz b))
  | None => None
  end.
