(** Model of the geometry part of the XDMF files (writers/writeMetaData.py).  Definitions only.  As in M_Io directories are left out: the location of a coordinate is
    gridPath/g... in the files of results and ./g... in that of the grid itself. *)
From Coq Require Import ZArith NArith String Ascii List.
From Verif Require Import M_Topology M_Halo M_Grid M_Metrics M_Procs M_Io.
Import ListNotations.
Local Open Scope Z_scope.

(** getGridFileH5Location (lines 62-71), written out per case as in the code; [lump] is the flag of the writer that makes the XDMF file, not that of the grid *)
Definition coordLocation (lump : bool) (num : N) (coord : text) : text :=
  if lump then t "g.h5:/coordinates_" ++ padded 6 num ++ t "/" ++ coord
  else t "g." ++ padded 6 num ++ t ".h5:/coordinates_" ++ padded 6 num ++ t "/" ++ coord.
(** addBlockElem (lines 49-60 and 123-136): the three data items of the geometry of one block with extents e and h halo layers written *)
Definition xdmfGeometry (lump : bool) (num : N) (e : ext) (h : Z) : list xItem :=
  let '(a, b, c) := e in map (fun coord => mkItem (c + 2 * h, b + 2 * h, a + 2 * h) (coordLocation lump num coord)) [t "x"; t "y"; t "z"].
(** writeGrid.py:45-56, 90 and writeRestart.py:117-120: h for a block *)
Definition geometryOf (withHalo lump : bool) (b : ioBlock) : list xItem := xdmfGeometry lump (io_num b) (extOf b) (haloOf withHalo b).
