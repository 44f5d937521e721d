(** Specification vocabulary for grid creation: lattices of blocks, uniform grids, affine
    continuation into halos. *)
From Coq Require Import Reals ZArith String List Bool.
From Verif Require Import M_Topology S_Topology M_Halo S_Halo M_Grid.
Import ListNotations.
Open Scope Z_scope.

(** A position in an m0 x m1 x m2 lattice of blocks, as an index triple (S_Halo.pt). *)
Definition inLattice (m : pt) (c : pt) : Prop := forall a, 0 <= co c a < co m a.
(** Blocks are numbered with i running fastest, then j, then k. *)
Definition number (m c : pt) : Z := co c I + co m I * (co c J + co m J * co c K).

Definition with_co (c : pt) (a : axis) (v : Z) : pt :=
  match a with I => (v, snd (fst c), snd c) | J => (fst (fst c), v, snd c) | K => (fst (fst c), snd (fst c), v) end.
Definition perAx (per : bool * bool * bool) (a : axis) : bool :=
  match a with I => fst (fst per) | J => snd (fst per) | K => snd per end.

(** The block next to [c] in direction [s]: the adjacent one, or the one at the other end if that
    direction is periodic, or none. *)
Definition nextBlock (m : pt) (per : bool * bool * bool) (c : pt) (s : saxis) : option pt :=
  let a := fst s in
  let x := if snd s then co c a + 1 else co c a - 1 in
  if (0 <=? x) && (x <? co m a) then Some (with_co c a x)
  else if perAx per a then Some (with_co c a (if snd s then 0 else co m a - 1)) else None.

(** Faces numbered 1..6 as on every freshly made block. *)
Definition sixFaces (b : gblock) : Prop := map (fun f => nface (gf_face f)) (gb_faces b) = [1; 2; 3; 4; 5; 6].

(** The topological part of a grid block, as the halo exchange sees it. *)
Definition toSBlock (b : gblock) : sblock := mkSBlock (mkBlock (gb_num b) (map gf_face (gb_faces b))) (gb_dims b).

Definition coords (b : gblock) (p : pt) : R * R * R := (at3 (gb_x b) p, at3 (gb_y b) p, at3 (gb_z b) p).

Open Scope R_scope.
(** Node number [n] of a uniform grid of [N] intervals over [o, o+l]. *)
Definition uniformNode (o l : R) (N n : Z) : R := o + l * IZR n / IZR N.

(** Value of an affine function of the indices. *)
Definition affine (c0 ci cj ck : R) (i j k : Z) : R := c0 + ci * IZR i + cj * IZR j + ck * IZR k.

(** An array entry of a block with [ng] halo layers. *)
Definition nodeIn (d : dims) (ng : Z) (i j k : Z) : Prop :=
  (0 <= i < ni d + 2 * ng /\ 0 <= j < nj d + 2 * ng /\ 0 <= k < nk d + 2 * ng)%Z.
Definition interiorNode (d : dims) (ng : Z) (i j k : Z) : Prop :=
  (ng <= i < ni d + ng /\ ng <= j < nj d + ng /\ ng <= k < nk d + ng)%Z.

(** Node of the global annulus: start at p3, go the fraction fx along p2 and fr of the thickness
    along p3's direction, then rotate by ft of the sweep (degrees) about p2. *)
Definition annulusNode (p2 p3 : vec) (sweep th : R) (fx fr ft : R) : vec :=
  let n12 := vscale (/ norm p2) p2 in let n13 := vscale (/ norm p3) p3 in
  rotate n12 (ft * sweep * PI / 180) (vadd p3 (vadd (vscale fx p2) (vscale (fr * th) n13))).


Open Scope Z_scope.
(** Array entries addressed by a triple, and replacement of one index. *)
Definition P3 := (Z * Z * Z)%type.
Definition ap {V} (x : array3 V) (p : P3) : V := x (fst (fst p)) (snd (fst p)) (snd p).
Definition ga (a : haxis) (p : P3) : Z := getA a (fst (fst p)) (snd (fst p)) (snd p).
Definition sa (a : haxis) (s : Z) (p : P3) : P3 :=
  match a with AI => (s, snd (fst p), snd p) | AJ => (fst (fst p), s, snd p) | AK => (fst (fst p), snd (fst p), s) end.
