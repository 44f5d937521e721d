(** Model of src/compute/switches/*.cpp, src/compute/utils/cfl.cpp, checkNan.cpp, viscousSponge.cpp and
    src/peregrinepy/mpiComm/mpiUtils.py.  Exact real arithmetic (NaN and infinity only where stated). *)
From Coq Require Import Reals ZArith List Bool.
From Verif Require Import M_Topology M_Halo M_Grid M_Metrics M_Flux.
Import ListNotations.
Open Scope R_scope.

(** The value a switch computes from the pressures of the previous cell, the cell and the next cell. *)
Definition switch1 := R -> R -> R -> R.
(** switches/jameson.cpp:26, 29, 32 *)
Definition jameson : switch1 := fun pm p pp => Rabs (pp - 2 * p + pm) / Rabs (pp + 2 * p + pm).
(** switches/vanAlbada.cpp:26-27, 29-30, 32-33 *)
Definition vanAlbada : switch1 := fun pm p pp =>
  let r := (p - pm + tiny) / (pp - p + tiny) in 1 - (r + Rabs r) / (1 + r ^ 2).
(** switches/vanLeer.cpp:15, 28-41 *)
Definition vanLeer : switch1 := fun pm p pp =>
  let eps := 1 / 1000 in
  Rabs (pp - 2 * p + pm) / ((1 - eps) * (Rabs (pp - p) + Rabs (p - pm)) + eps * (pp + 2 * p + pm)).
(** The loop common to the three files (jameson.cpp:9-34): interior cells, component 0, 1, 2 of phi from
    the pressures q(.,.,.,0) along i, j, k. *)
Definition switchKernel (s : switch1) (d : dims) (ng : Z) (q phi : array4) : array4 := fun i j k l =>
  if inCC d ng 3 i j k l then
    let p := q i j k 0%Z in
    if (l =? 0)%Z then s (q (i-1)%Z j k 0%Z) p (q (i+1)%Z j k 0%Z)
    else if (l =? 1)%Z then s (q i (j-1)%Z k 0%Z) p (q i (j+1)%Z k 0%Z)
    else s (q i j (k-1)%Z 0%Z) p (q i j (k+1)%Z 0%Z)
  else phi i j k l.

(** What CFLmax reads of a block: sizes, face centres ixc.., face normals inx.., q and the sound speed qh(..,3). *)
Record cblock := mkCB { cb_d : dims; cb_ng : Z; cb_q : array4; cb_qh : array4;
  cb_ic : Z -> Z -> Z -> vec; cb_jc : Z -> Z -> Z -> vec; cb_kc : Z -> Z -> Z -> vec;
  cb_in : Z -> Z -> Z -> vec; cb_jn : Z -> Z -> Z -> vec; cb_kn : Z -> Z -> Z -> vec }.
(** cfl.cpp:38-46 *)
Definition dist3 (a b : vec) : R := sqrt ((vx b - vx a) ^ 2 + (vy b - vy a) ^ 2 + (vz b - vz a) ^ 2).
(** cfl.cpp:53-64: velocity component from the two opposite face normals *)
Definition cflU (n1 n2 : vec) (u v w : R) : R :=
  sqrt ((1/2 * (vx n1 + vx n2) * u) ^ 2 + (1/2 * (vy n1 + vy n2) * v) ^ 2 + (1/2 * (vz n1 + vz n2) * w) ^ 2).
(** cfl.cpp:19-30 *)
Definition cflMult (n : Z) : R := if (n =? 2)%Z then 0 else 1.
(** cfl.cpp:38-79: the three contributions (acoustic, convective, both) of direction a of one cell *)
Definition cflTerms (b : cblock) (c : Z * Z * Z) (a : haxis) : R * R * R :=
  let '(i, j, k) := c in
  let u := cb_q b i j k 1%Z in let v := cb_q b i j k 2%Z in let w := cb_q b i j k 3%Z in let cs := cb_qh b i j k 3%Z in
  match a with
  | AI => let dI := dist3 (cb_ic b i j k) (cb_ic b (i+1)%Z j k) in
          let uI := cflU (cb_in b i j k) (cb_in b (i+1)%Z j k) u v w in
          let m := cflMult (ni (cb_d b)) in (m * cs / dI, m * uI / dI, m * (uI + cs) / dI)
  | AJ => let dJ := dist3 (cb_jc b i j k) (cb_jc b i (j+1)%Z k) in
          let uJ := cflU (cb_jn b i j k) (cb_jn b i (j+1)%Z k) u v w in
          let m := cflMult (nj (cb_d b)) in (m * cs / dJ, m * uJ / dJ, m * (uJ + cs) / dJ)
  | AK => let dK := dist3 (cb_kc b i j k) (cb_kc b i j (k+1)%Z) in
          let uK := cflU (cb_kn b i j k) (cb_kn b i j (k+1)%Z) u v w in
          let m := cflMult (nk (cb_d b)) in (m * cs / dK, m * uK / dK, m * (uK + cs) / dK)
  end.
Definition max3 (x y : R * R * R) : R * R * R :=
  (Rmax (fst (fst x)) (fst (fst y)), Rmax (snd (fst x)) (snd (fst y)), Rmax (snd x) (snd y)).
(** The way Kokkos parallel_reduce may combine the cells: any binary tree whose leaves are threads with the
    Max identity and in which each step folds one cell into a thread's value (cfl.cpp:33, 81-82). *)
Inductive rtree := RInit | RCell (t : rtree) (c : Z * Z * Z) | RJoin (t1 t2 : rtree).
Fixpoint leaves (t : rtree) : list (Z * Z * Z) :=
  match t with RInit => [] | RCell t c => c :: leaves t | RJoin a b => leaves a ++ leaves b end.
(** identity of Kokkos::Max<double>: the lowest finite double *)
Definition lowest : R := - ((2 - / 2 ^ 52) * 2 ^ 1023).
Fixpoint reduceCFL (b : cblock) (t : rtree) : R * R * R :=
  match t with
  | RInit => (lowest, lowest, lowest)
  | RCell t c => max3 (max3 (max3 (reduceCFL b t) (cflTerms b c AI)) (cflTerms b c AJ)) (cflTerms b c AK)   (* cfl.cpp:69-79 *)
  | RJoin x y => max3 (reduceCFL b x) (reduceCFL b y)
  end.
(** cfl.cpp:8-89 with one reduction tree per block *)
Fixpoint CFLloop (mb : list (cblock * rtree)) (acc : R * R * R) : R * R * R :=
  match mb with
  | [] => acc
  | (b, t) :: r => let m := reduceCFL b t in
      CFLloop r (Rmax (fst (fst m)) (fst (fst acc)), Rmax (Rmax (snd (fst m)) (snd (fst acc))) tiny, Rmax (snd m) (snd acc))
  end.
Definition CFLmax (mb : list (cblock * rtree)) : R * R * R := CFLloop mb (0, 0, 0).

(** comm.Allreduce(.., op=MPI.MAX) (mpiUtils.py:53): the componentwise maximum over the ranks *)
Definition allreduceMax (xs : list (R * R * R)) : R * R * R :=
  match xs with [] => (0, 0, 0) | x :: r => fold_left max3 r x end.
Record tconfig := mkTC { variableTimeStep : bool; maxCFL : R; maxDt : R; cfgDt : R }.
(** mpiUtils.py:49-61, run by the rank with configuration cfg.  maxCFL / 0 is numpy's inf, so the minimum
    is maxDt.  (Under np.seterr(all="raise"), runPeregrine.py:10, it raises FloatingPointError instead.) *)
Definition getDtMaxCFL (cfg : tconfig) (ranks : list (list (cblock * rtree))) : R * (R * R * R) :=
  let cfl := allreduceMax (map CFLmax ranks) in
  let dt := if variableTimeStep cfg then
              (if Req_EM_T (snd cfl) 0 then maxDt cfg else Rmin (maxCFL cfg / snd cfl) (maxDt cfg))
            else cfgDt cfg in
  (dt, cfl).

(** mpiUtils.py:14-23 and 26-46 (block sizes only) *)
Definition blockCells (d : dims) : Z := ((ni d - 1) * (nj d - 1) * (nk d - 1))%Z.
Definition myCells (mb : list dims) : Z := fold_left (fun a d => (a + blockCells d)%Z) mb 0%Z.
Definition getNumCells (ranks : list (list dims)) : Z := fold_right Z.add 0%Z (map myCells ranks).
Fixpoint argmaxFrom (xs : list Z) (idx best : Z) (i : Z) : Z * Z :=
  match xs with [] => (idx, best) | x :: r => if (best <? x)%Z then argmaxFrom r i x (i+1)%Z else argmaxFrom r idx best (i+1)%Z end.
Definition getLoadEfficiency (ranks : list (list dims)) : option (R * Z) :=
  match map myCells ranks with
  | [] => None
  | x :: r => let '(p, m) := argmaxFrom r 0%Z x 1%Z in
      Some (IZR (getNumCells ranks) / IZR (Z.of_nat (length ranks)) / IZR m * 100, p)
  end.

(** A stored double: a finite real, an infinity or a NaN.  isfinite of math.h. *)
Inductive fval := Fin (x : R) | Inf (neg : bool) | NaN.
Definition isfinite (x : fval) : Z := match x with Fin _ => 1%Z | _ => 0%Z end.
(** checkNan.cpp:16-24: reduction tree over the (i,j,k,l) entries; Kokkos::Min<int> identity INT_MAX *)
Inductive ntree := NInit | NCell (t : ntree) (c : Z * Z * Z * Z) | NJoin (t1 t2 : ntree).
Fixpoint nleaves (t : ntree) : list (Z * Z * Z * Z) :=
  match t with NInit => [] | NCell t c => c :: nleaves t | NJoin a b => nleaves a ++ nleaves b end.
Definition fblock := Z -> Z -> Z -> Z -> fval.
Fixpoint reduceFin (Q : fblock) (t : ntree) : Z :=
  match t with
  | NInit => 2147483647%Z
  | NCell t (i, j, k, l) => Z.min (isfinite (Q i j k l)) (reduceFin Q t)
  | NJoin a b => Z.min (reduceFin Q a) (reduceFin Q b)
  end.
(** checkNan.cpp:7-33 *)
Fixpoint checkNan (mb : list (fblock * ntree)) : Z :=
  match mb with [] => 0%Z | (Q, t) :: r => if (reduceFin Q t =? 0)%Z then 1%Z else checkNan r end.
(** mpiUtils.py:64-88: Allreduce SUM; every rank returns the same number *)
Definition checkForNan (ranks : list (list (fblock * ntree))) : Z := fold_right Z.add 0%Z (map checkNan ranks).

(** viscousSponge.cpp:13-35: the factor at a cell centre *)
Definition spongeFactor (origin ending : vec) (mult : R) (xc : vec) : R :=
  let vec' := vsub xc origin in
  let L := sqrt ((vx ending - vx origin) ^ 2 + (vy ending - vy origin) ^ 2 + (vz ending - vz origin) ^ 2) in
  let n := ((vx ending - vx origin) / L, (vy ending - vy origin) / L, (vz ending - vz origin) / L) in
  let dist := vx vec' * vx n + vy vec' * vy n + vz vec' * vz n in
  let m := dist / L * (mult - 1) in
  1 + Rmin (Rmax 0 m) mult.
(** viscousSponge.cpp:5-39: cells ng-1 <= i < ni+ng, component 0 (viscosity) of qt only *)
Definition viscousSponge (d : dims) (ng : Z) (origin ending : vec) (mult : R) (xc : Z -> Z -> Z -> vec) (qt : array4) : array4 :=
  fun i j k l =>
    if ((ng - 1 <=? i) && (i <? ni d + ng) && (ng - 1 <=? j) && (j <? nj d + ng) && (ng - 1 <=? k) && (k <? nk d + ng) && (l =? 0))%Z%bool
    then qt i j k l * spongeFactor origin ending mult (xc i j k) else qt i j k l.
