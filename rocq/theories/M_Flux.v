(** Model of src/compute/utils/applyFluxes.cpp, dQzero.cpp and the advective part of RHS.py.
    Exact real arithmetic; Kokkos parallel loops over disjoint cells are functions of the cell. *)
From Coq Require Import Reals ZArith List Bool.
From Verif Require Import M_Topology M_Halo M_Grid M_Metrics.
Import ListNotations.
Open Scope R_scope.

(** The face flux arrays iF, jF, kF of a block: entry (i,j,k,l) of iF is the flux of component l
    through the face between cells (i-1,j,k) and (i,j,k), positive in +i (block_.hpp). *)
Record fluxes := mkFl { iF : array4; jF : array4; kF : array4 }.

(** MDRange4 range_cc({ng,ng,ng,0},{ni+ng-1,nj+ng-1,nk+ng-1,ne}), applyFluxes.cpp:11-12 *)
Definition inCC (d : dims) (ng ne : Z) (i j k l : Z) : bool :=
  ((ng <=? i) && (i <? ni d + ng - 1) && (ng <=? j) && (j <? nj d + ng - 1) &&
   (ng <=? k) && (k <? nk d + ng - 1) && (0 <=? l) && (l <? ne))%Z%bool.

(** applyFluxes.cpp:6-25 *)
Definition applyFlux (d : dims) (ng ne : Z) (J : array3 R) (F : fluxes) (dQ : array4) : array4 :=
  fun i j k l =>
    if inCC d ng ne i j k l then
      let a := dQ i j k l + (iF F i j k l + jF F i j k l + kF F i j k l) / J i j k in
      a - (iF F (i+1)%Z j k l + jF F i (j+1)%Z k l + kF F i j (k+1)%Z l) / J i j k
    else dQ i j k l.

(** applyFluxes.cpp:27-62 *)
Definition applyHybridFlux (d : dims) (ng ne : Z) (J : array3 R) (phi : array4) (primary : R) (F : fluxes) (dQ : array4) : array4 :=
  fun i j k l =>
    if inCC d ng ne i j k l then
      let iFphi := Rmax (phi i j k 0%Z) (phi (i-1)%Z j k 0%Z) in
      let iFphi1 := Rmax (phi i j k 0%Z) (phi (i+1)%Z j k 0%Z) in
      let jFphi := Rmax (phi i j k 1%Z) (phi i (j-1)%Z k 1%Z) in
      let jFphi1 := Rmax (phi i j k 1%Z) (phi i (j+1)%Z k 1%Z) in
      let kFphi := Rmax (phi i j k 2%Z) (phi i j (k-1)%Z 2%Z) in
      let kFphi1 := Rmax (phi i j k 2%Z) (phi i j (k+1)%Z 2%Z) in
      let dPrimary := 2 * primary - 1 in
      let a := dQ i j k l + (iF F i j k l * (primary - iFphi * dPrimary) + jF F i j k l * (primary - jFphi * dPrimary) +
                             kF F i j k l * (primary - kFphi * dPrimary)) / J i j k in
      a - (iF F (i+1)%Z j k l * (primary - iFphi1 * dPrimary) + jF F i (j+1)%Z k l * (primary - jFphi1 * dPrimary) +
           kF F i j (k+1)%Z l * (primary - kFphi1 * dPrimary)) / J i j k
    else dQ i j k l.

(** applyFluxes.cpp:64-83 *)
Definition applyDissipationFlux (d : dims) (ng ne : Z) (J : array3 R) (F : fluxes) (dQ : array4) : array4 :=
  fun i j k l =>
    if inCC d ng ne i j k l then
      let a := dQ i j k l - (iF F i j k l + jF F i j k l + kF F i j k l) / J i j k in
      a + (iF F (i+1)%Z j k l + jF F i (j+1)%Z k l + kF F i j (k+1)%Z l) / J i j k
    else dQ i j k l.

(** dQzero.cpp: dQ = 0 everywhere *)
Definition dQzero : array4 := fun _ _ _ _ => 0.

(** RHS.py:12-22 with setRHS's selection (multiBlock/__init__.py:81-107).  [secondary] is None when no
    secondary flux is configured; then the flux arrays still hold the primary flux when the apply
    routine runs. *)
Inductive shock := NoShock | ArtificialDissipation | Hybrid.
Definition advectiveRHS (sh : shock) (d : dims) (ng ne : Z) (J : array3 R) (phi : array4)
           (primary : fluxes) (secondary : option fluxes) : array4 :=
  let dQ0 := dQzero in
  let dQ1 := match sh with
             | NoShock | ArtificialDissipation => applyFlux d ng ne J primary dQ0
             | Hybrid => applyHybridFlux d ng ne J phi 1 primary dQ0
             end in
  let F2 := match secondary with Some F => F | None => primary end in
  match sh with
  | NoShock => dQ1
  | ArtificialDissipation => applyDissipationFlux d ng ne J F2 dQ1
  | Hybrid => applyHybridFlux d ng ne J phi 0 F2 dQ1
  end.
