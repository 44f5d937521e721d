(** Independent specification for the geometry of XDMF files (C162). *)
From Coq Require Import Reals ZArith NArith String Ascii List.
From Verif Require Import M_Topology M_Halo M_Grid M_Metrics M_Procs M_Io S_Io.
Import ListNotations.
Local Open Scope Z_scope.

(** the nodes shown along an axis with n nodes, and the first of them in the array: solver blocks may show their halo *)
Definition nodesShown (withHalo : bool) (b : ioBlock) (n : Z) : Z := if (withHalo && io_solver b)%bool then n + 2 * io_ng b else n.
Definition firstNode (withHalo : bool) (b : ioBlock) : Z := if (withHalo && io_solver b)%bool then 0 else io_ng b.
(** the item leads to a dataset, of the extents it announces, with coordinate c (0: x, 1: y, 2: z) of each node shown, the first index running fastest *)
Definition itemNodes (rnd : R -> R) (withHalo : bool) (d : disk) (b : ioBlock) (c : nat) (name : text) (x : xItem) : Prop :=
  let n1 := nodesShown withHalo b (ni (io_dims b)) in let n2 := nodesShown withHalo b (nj (io_dims b)) in let n3 := nodesShown withHalo b (nk (io_dims b)) in let lo := firstNode withHalo b in
  exists file grp qf g l, x_loc x = file ++ t ":/" ++ grp ++ t "/" ++ name /\ assoc d file = Some qf /\ assoc qf grp = Some g /\ assoc g name = Some (DArr l) /\
    x_dims x = (n3, n2, n1) /\ List.length l = Z.to_nat (n1 * n2 * n3) /\
    forall i j k, 0 <= i < n1 -> 0 <= j < n2 -> 0 <= k < n3 -> nth (Z.to_nat (i + n1 * (j + n2 * k))) l 0%R = rnd (io_xyz b (Z.of_nat c) (lo + i) (lo + j) (lo + k)).
(** [d'] comes from [d] by any further output that leaves the files of the grid, g... , alone *)
Definition gridFilesKept (d d' : disk) : Prop := forall rest, assoc d' ("g"%char :: "."%char :: rest) = assoc d ("g"%char :: "."%char :: rest).
