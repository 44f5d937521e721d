(** Specification vocabulary: cells, face sums, net flux out of a block and of a multi-block. *)
From Coq Require Import Reals ZArith List Bool.
From Verif Require Import M_Topology S_Topology M_Halo S_Halo M_Grid M_Metrics M_Flux S_Sum.
Import ListNotations.
Open Scope R_scope.

(** lowest interior cell and one past the highest, per axis *)
Definition cellLo (ng : Z) : pt := (ng, ng, ng).
Definition cellHi (d : dims) (ng : Z) : pt := (ni d + ng - 1, nj d + ng - 1, nk d + ng - 1)%Z.

(** flux component through the faces normal to an axis *)
Definition fluxOf (F : fluxes) (l : Z) (a : axis) : array3 R :=
  match a with I => fun i j k => iF F i j k l | J => fun i j k => jF F i j k l | K => fun i j k => kF F i j k l end.

(** face entries lying on the block face with outward direction s: first/one past last index *)
Definition faceLo (d : dims) (ng : Z) (s : saxis) : pt :=
  let pl := (if snd s then dim d (fst s) + ng - 1 else ng)%Z in
  match fst s with I => (pl, ng, ng) | J => (ng, pl, ng) | K => (ng, ng, pl) end.
Definition faceHi (d : dims) (ng : Z) (s : saxis) : pt :=
  let pl := (if snd s then dim d (fst s) + ng - 1 else ng)%Z in
  match fst s with
  | I => (pl + 1, nj d + ng - 1, nk d + ng - 1)
  | J => (ni d + ng - 1, pl + 1, nk d + ng - 1)
  | K => (ni d + ng - 1, nj d + ng - 1, pl + 1) end%Z.
(** net outflow through one face *)
Definition outflow (d : dims) (ng : Z) (F : fluxes) (l : Z) (s : saxis) : R :=
  (if snd s then 1 else -1) * sum3 (faceLo d ng s) (faceHi d ng s) (fluxOf F l (fst s)).
Definition sixDirs : list saxis := [(I,false); (I,true); (J,false); (J,true); (K,false); (K,true)].
Definition sumR {A} (f : A -> R) (l : list A) : R := fold_right Rplus 0 (map f l).

(** Position (half-cell units) of a face entry normal to axis a: on a node plane across, at a cell
    centre along. *)
Definition posF (a : axis) (p : pt) (b : axis) : Z := if axis_eqb a b then (2 * co p b)%Z else (2 * co p b + 1)%Z.

(** Two blocks hold the same transfer through a shared face: at every glued pair of face entries the
    fluxes agree, up to the sense in which the axis is carried over. *)
Definition sameTransfer (ng : Z) (w : list (list sblock)) (F : Z -> fluxes) (l : Z) : Prop :=
  forall A f B o s p p', joined w A f B o -> outward (nface f) s ->
    (forall a, co (faceLo (sb_dims A) ng s) a <= co p a < co (faceHi (sb_dims A) ng s) a)%Z ->
    glued ng (sb_dims A) (sb_dims B) s o (posF (fst s) p) (posF (fst (o (fst s))) p') ->
    at3 (fluxOf (F (num A)) l (fst s)) p = (if snd (o (fst s)) then 1 else -1) * at3 (fluxOf (F (num B)) l (fst (o (fst s)))) p'.
(** the faces of the multi-block that are not connected *)
Definition boundaryFaces (A : sblock) : list face := filter (fun f => match neighbor f with None => true | Some _ => false end) (faces (sb_topo A)).
Definition dirOf (n : Z) : saxis :=
  if (n =? 1)%Z then (I,false) else if (n =? 2)%Z then (I,true) else if (n =? 3)%Z then (J,false)
  else if (n =? 4)%Z then (J,true) else if (n =? 5)%Z then (K,false) else (K,true).

(** the switch of the face between cell (i,j,k) and the cell below it along an axis: the larger of the
    two cell switches, component 0,1,2 for i,j,k faces *)
Definition faceSwitch (phi : array4) (a : axis) : array3 R :=
  match a with
  | I => fun i j k => Rmax (phi (i-1)%Z j k 0%Z) (phi i j k 0%Z)
  | J => fun i j k => Rmax (phi i (j-1)%Z k 1%Z) (phi i j k 1%Z)
  | K => fun i j k => Rmax (phi i j (k-1)%Z 2%Z) (phi i j k 2%Z) end.
(** combination  a*F + b*G  of two sets of face fluxes with face-wise weights *)
Definition combine (a : axis -> array3 R) (F : fluxes) (b : axis -> array3 R) (G : fluxes) : fluxes :=
  mkFl (fun i j k l => a I i j k * iF F i j k l + b I i j k * iF G i j k l)
       (fun i j k l => a J i j k * jF F i j k l + b J i j k * jF G i j k l)
       (fun i j k l => a K i j k * kF F i j k l + b K i j k * kF G i j k l).
Definition compl (w : axis -> array3 R) : axis -> array3 R := fun a i j k => 1 - w a i j k.
Definition const (c : R) : axis -> array3 R := fun _ _ _ _ => c.
(** volume-weighted change of component l summed over the interior cells *)
Definition totalChange (d : dims) (ng : Z) (Jv : array3 R) (old new : array4) (l : Z) : R :=
  sum3 (cellLo ng) (cellHi d ng) (fun i j k => Jv i j k * (new i j k l - old i j k l)).
Definition interiorCell (d : dims) (ng i j k : Z) : Prop :=
  (ng <= i < ni d + ng - 1 /\ ng <= j < nj d + ng - 1 /\ ng <= k < nk d + ng - 1)%Z.
Definition volumesNonzero (d : dims) (ng : Z) (Jv : array3 R) : Prop := forall i j k, interiorCell d ng i j k -> Jv i j k <> 0.
