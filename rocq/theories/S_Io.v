(** Independent specification for files (C65-C68, C98, C99). *)
From Coq Require Import Reals ZArith NArith String List.
From Verif Require Import M_Topology M_Halo M_Grid M_Metrics M_Procs M_Io.
Import ListNotations.
Open Scope Z_scope.

(** two faces agree in all a connectivity file holds *)
Definition sameConn (f g : face) : Prop := nface f = nface g /\ bcType f = bcType g /\ bcFam f = bcFam g /\ neighbor f = neighbor g /\ orientation f = orientation g.
(** the nodes of [r] are those of [w], up to the precision of the file; each block may have its own number of halo layers *)
Definition sameNodes (rnd : R -> R) (w r : ioBlock) : Prop :=
  io_dims r = io_dims w /\ forall c i j k, 0 <= c <= 2 -> 0 <= i < ni (io_dims w) -> 0 <= j < nj (io_dims w) -> 0 <= k < nk (io_dims w) ->
    io_xyz r c (io_ng r + i) (io_ng r + j) (io_ng r + k) = rnd (io_xyz w c (io_ng w + i) (io_ng w + j) (io_ng w + k)).
(** the cells of the block *)
Definition isCell (d : dims) (i j k : Z) : Prop := 0 <= i < ni d - 1 /\ 0 <= j < nj d - 1 /\ 0 <= k < nk d - 1.
(** the value of the m-th stored variable in cell (i,j,k) counted from the first interior cell *)
Definition cellVar (b : ioBlock) (m i j k : Z) : R := io_q b (io_ng b + i) (io_ng b + j) (io_ng b + k) m.
(** the mass fractions of a cell that are stored: all species but the last *)
Definition otherFractions (b : ioBlock) (i j k : Z) : R :=
  fold_right Rplus 0%R (map (fun c => cellVar b (Z.of_nat c) i j k) (seq 5 (List.length (io_species b) - 1))).
(** the interior index nearest to i *)
Definition nearest (ng n i : Z) : Z := Z.max ng (Z.min i (ng + (n - 1) - 1)).
(** names of a block that can be written: at least one species, and no name twice *)
Definition goodNames (species : list text) : Prop := species <> [] /\ NoDup (t "rho"%string :: baseNames ++ species).
Definition goodDims (d : dims) : Prop := 2 <= ni d /\ 2 <= nj d /\ 2 <= nk d.
(** the stored mass fractions of a cell of a restart block *)
Definition fractionSum (ns : nat) (q : array4) (i j k : Z) : R := fold_right Rplus 0%R (map (fun c => q i j k (Z.of_nat c)) (seq 5 (ns - 1))).
(** the variables a block keeps, by name: p, u, v, w, T and all species but the last *)
Definition stored (species : list text) : list text := map t ["p"; "u"; "v"; "w"; "T"]%string ++ removelast species.
(** [r], read from a file into which [w] was written, has in every cell, for each of its own variables: what [w] has under the same name, if [w] keeps it; one minus the other
    fractions, if it is the last species of [w]; zero, if [w] does not know it - up to the precision of the file *)
Definition restored (rnd : R -> R) (w r : ioBlock) : Prop :=
  forall i j k, isCell (io_dims w) i j k -> forall m name, nth_error (stored (io_species r)) m = Some name ->
    (forall m', nth_error (stored (io_species w)) m' = Some name -> cellVar r (Z.of_nat m) i j k = rnd (cellVar w (Z.of_nat m') i j k)) /\
    (name = last (io_species w) [] -> cellVar r (Z.of_nat m) i j k = rnd (1 - otherFractions w i j k)%R) /\
    (~ In name (t "rho"%string :: stored (io_species w) ++ [last (io_species w) []]) -> cellVar r (Z.of_nat m) i j k = 0%R).
(** what a disk can look like at some moment while the restart of iteration [nrt] is being written: only files of that restart have been touched, in any order, with any contents *)
Definition whileWriting (lump animate : bool) (nrt : N) (d d' : disk) : Prop :=
  exists touched, (forall n c, In (n, c) touched -> exists num, n = varFileName lump animate nrt num) /\ d' = fold_left (fun d '(n, c) => assign d n c) touched d.
(** c is the interior index (of n - 1 cells after ng halo cells) closest to i *)
Definition closest (ng n i c : Z) : Prop := ng <= c < ng + (n - 1) /\ forall c', ng <= c' < ng + (n - 1) -> Z.abs (i - c) <= Z.abs (i - c').
Definition size3 (p : Z * Z * Z) : nat := let '(a, b, c) := p in Z.to_nat (a * b * c).
(** the item of the XDMF file leads to a dataset that exists, with as many values as the item announces *)
Definition leadsTo (d : disk) (name : text) (x : xItem) : Prop :=
  exists file group qf g l, x_loc x = file ++ t ":/"%string ++ group ++ t "/"%string ++ name /\ assoc d file = Some qf /\ assoc qf group = Some g /\ assoc g name = Some (DArr l) /\ List.length l = size3 (x_dims x).
