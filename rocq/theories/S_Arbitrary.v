(** Independent specification for the output of single arrays (C160, C161). *)
From Coq Require Import Reals ZArith NArith String Ascii List.
From Verif Require Import M_Topology M_Halo M_Grid M_Metrics M_Procs M_Io S_Io M_Arbitrary.
Import ListNotations.
Local Open Scope Z_scope.

(** an array with one entry (or one row of entries) per cell of the block and of its halo *)
Definition perCell (b : ioBlock) (a : arr) : Prop := a_dims a = (ni (io_dims b) - 1 + 2 * io_ng b, nj (io_dims b) - 1 + 2 * io_ng b, nk (io_dims b) - 1 + 2 * io_ng b).
(** an array with one more entry along some of the axes: values on faces, edges or nodes *)
Definition notPerCell (b : ioBlock) (a : arr) : Prop :=
  exists e1 e2 e3, (e1 = 0 \/ e1 = 1) /\ (e2 = 0 \/ e2 = 1) /\ (e3 = 0 \/ e3 = 1) /\ 0 < e1 + e2 + e3 /\
  a_dims a = (ni (io_dims b) - 1 + 2 * io_ng b + e1, nj (io_dims b) - 1 + 2 * io_ng b + e2, nk (io_dims b) - 1 + 2 * io_ng b + e3).
(** the parts of an array: itself, called by its name, or the columns of its fourth axis, called name_0, name_1, ... *)
Definition parts (a : arr) : nat := match a_comps a with None => 1%nat | Some n => n end.
Definition partName (name : text) (a : arr) (c : nat) : text := match a_comps a with None => name | Some _ => name ++ t "_" ++ printN (N.of_nat c) end.
(** the cells of the file along an axis of n nodes, and the first of them in the array *)
Definition shown (withHalo : bool) (b : ioBlock) (n : Z) : Z := if withHalo then n - 1 + 2 * io_ng b else n - 1.
Definition firstShown (withHalo : bool) (b : ioBlock) : Z := if withHalo then 0 else io_ng b.
(** the item leads to a dataset, of the extents it announces, that has for each cell shown the value of part c of the array - up to the precision of the file; the first index is
    the fastest *)
Definition itemShows (rnd : R -> R) (withHalo : bool) (d : disk) (b : ioBlock) (a : arr) (c : nat) (name : text) (x : xItem) : Prop :=
  let n1 := shown withHalo b (ni (io_dims b)) in let n2 := shown withHalo b (nj (io_dims b)) in let n3 := shown withHalo b (nk (io_dims b)) in let lo := firstShown withHalo b in
  exists file grp qf g l, x_loc x = file ++ t ":/" ++ grp ++ t "/" ++ name /\ assoc d file = Some qf /\ assoc qf grp = Some g /\ assoc g name = Some (DArr l) /\
    x_dims x = (n3, n2, n1) /\ List.length l = Z.to_nat (n1 * n2 * n3) /\
    forall i j k, 0 <= i < n1 -> 0 <= j < n2 -> 0 <= k < n3 -> nth (Z.to_nat (i + n1 * (j + n2 * k))) l 0%R = rnd (a_val a (lo + i) (lo + j) (lo + k) (Z.of_nat c)).
(** the entry of the XDMF file for block b: its number and node extents, and one scalar for each part of the array *)
Definition gridShows (rnd : R -> R) (withHalo : bool) (d : disk) (b : ioBlock) (name : text) (a : arr) (x : xGrid) : Prop :=
  xg_num x = io_num b /\ xg_topo x = (shown withHalo b (nk (io_dims b)) + 1, shown withHalo b (nj (io_dims b)) + 1, shown withHalo b (ni (io_dims b)) + 1) /\
  List.length (xg_scalars x) = parts a /\
  forall c, (c < parts a)%nat -> exists item, nth_error (xg_scalars x) c = Some (partName name a c, item) /\ itemShows rnd withHalo d b a c (partName name a c) item.
(** the files that an output of the array [name] is allowed to touch *)
Definition ofArray (name : text) (file : text) : Prop := exists rest, file = name ++ "."%char :: rest.
