(** Model of src/peregrinepy/bcs/{prepInlets,prepExits,prepWalls}.py.  Definitions only.
    A face array is a function of its three indices; shape (e0, e1, ne) with e0, e1 = [sliceExt] (the shape of q[s1_], readBcs.py:96-97), and the arrays start as zeros.
    A dictionary is the list of its entries; numpy files are the arrays that successive np.load calls give.  Simplifications: an array assigned to a slice must have its shape (no broadcasting
    of size-one axes); every exception is [inr false] (none of them is an AttributeError); values are numbers or booleans. *)
From Coq Require Import Reals ZArith NArith String Ascii List Bool.
From Verif Require Import M_Topology M_Halo M_Grid M_Metrics M_FluxKernels M_Bc M_Procs M_Io.
Import ListNotations.
Open Scope R_scope.

Inductive pyv := PNum (r : R) | PTrue | PFalse.
Definition pyR (v : pyv) : R := match v with PNum r => r | PTrue => 1 | PFalse => 0 end.
Definition truthy (v : pyv) : bool := match v with PNum r => if Req_EM_T r 0 then false else true | PTrue => true | PFalse => false end.
Definition valueDict := list (string * pyv).
Fixpoint get (d : valueDict) (k : string) : option pyv := match d with [] => None | (k', v) :: r => if String.eqb k k' then Some v else get r k end.

Record npArr := mkNp { np_shape : list Z; np_val : list Z -> R }.
(** the working directory: what the file of a path holds *)
Definition disk := list ascii -> option (list npArr).
Record blkInfo := mkBI { bi_num : N; bi_d : dims; bi_ng : Z; bi_species : list string; bi_nI : Z -> Z -> Z -> vec; bi_nJ : Z -> Z -> Z -> vec; bi_nK : Z -> Z -> Z -> vec }.
Definition bi_ne (b : blkInfo) : Z := (4 + Z.of_nat (List.length (bi_species b)))%Z.
Definition arr3 := Z -> Z -> Z -> R.
Definition arr5 := Z -> Z -> Z -> Z -> Z -> R.
(** qBcVals, QBcVals; for the cubic spline inlet cubicSplineAlphas, its second extent, and intervalDt *)
Record bcArr := mkBA { ba_q : arr3; ba_Q : arr3; ba_spline : option (arr5 * Z * R) }.
(** np.zeros (readBcs.py:96-97) *)
Definition zeros : arr3 := fun _ _ _ => 0.

(** array[:, :, l] = v *)
Definition setComp (A : arr3) (l : Z) (v : R) : arr3 := fun a b c => if (c =? l)%Z then v else A a b c.
(** "array[ng:-ng, ng:-ng, :] = np.load(f)" *)
Definition setInner (e0 e1 ng : Z) (A : arr3) (n : npArr) : arr3 := fun a b l =>
  if ((ng <=? a) && (a <? e0 - ng) && (ng <=? b) && (b <? e1 - ng))%Z%bool then np_val n [(a - ng)%Z; (b - ng)%Z; l] else A a b l.
(** the four assignments "array[0:ng, :, :] = array[[ng], :, :]" ... (prepInlets.py:20-24 and the same lines of the other functions) *)
Definition fillEdges (e0 e1 ng : Z) (A : arr3) : arr3 :=
  let A1 : arr3 := fun a b l => if ((0 <=? a) && (a <? ng))%Z%bool then A ng b l else A a b l in
  let A2 : arr3 := fun a b l => if ((e0 - ng <=? a) && (a <? e0))%Z%bool then A1 (e0 - ng - 1)%Z b l else A1 a b l in
  let A3 : arr3 := fun a b l => if ((0 <=? b) && (b <? ng))%Z%bool then A2 a ng l else A2 a b l in
  fun a b l => if ((e1 - ng <=? b) && (b <? e1))%Z%bool then A3 a (e1 - ng - 1)%Z l else A3 a b l.
(** f"{n}" *)
Definition dec (n : N) : list ascii := printN n.
(** "./Input/profiles/{bcFam}_{nblki}_{nface}.npy" *)
Definition profileName (fam : string) (num face : N) : list ascii := t "./Input/profiles/" ++ t fam ++ t "_" ++ dec num ++ t "_" ++ dec face ++ t ".npy".
(** "./Input/{bcFam}Alphas/alphas_{nblki}_{nface}.npy" (prepInlets.py:52) *)
Definition alphasName (fam : string) (num face : N) : list ascii := t "./Input/" ++ t fam ++ t "Alphas/alphas_" ++ dec num ++ t "_" ++ dec face ++ t ".npy".
Definition shapeIs (n : npArr) (s : list Z) : bool := if list_eq_dec Z.eq_dec (np_shape n) s then true else false.

Section Prep.
Variable files : disk.
(** the profile branch: prepInlets.py:11-25, 86-100, 121-135, 192-206 (and prepExits.py:6-19, prepWalls.py:19-33, 43-57, 70-84, 97-111 with the same text) *)
Definition fromProfile (blk : blkInfo) (fam : string) (nface : Z) : bcArr + bool :=
  let '(e0, e1) := sliceExt (bi_d blk) (bi_ng blk) nface in let ng := bi_ng blk in
  let sh := [(e0 - 2 * ng)%Z; (e1 - 2 * ng)%Z; bi_ne blk] in
  match files (profileName fam (bi_num blk) (Z.to_N nface)) with
  | Some (nq :: nQ :: _) =>
      if (shapeIs nq sh && shapeIs nQ sh)%bool
      then inl (mkBA (fillEdges e0 e1 ng (setInner e0 e1 ng zeros nq)) (fillEdges e0 e1 ng (setInner e0 e1 ng zeros nQ)) None)
      else inr false
  | _ => inr false
  end.
(** valueDict["profile"], False when missing *)
Definition wantsProfile (v : valueDict) : bool := match get v "profile" with None => false | Some x => truthy x end.
(** face.array["qBcVals"][:, :, l] = valueDict[key], for the listed components in turn; a missing key is a KeyError *)
Fixpoint setAll (v : valueDict) (l : list (Z * string)) (A : arr3) : option arr3 :=
  match l with [] => Some A | (c, k) :: r => match get v k with None => None | Some x => setAll v r (setComp A c (pyR x)) end end.
(** for i, spn in enumerate(blk.speciesNames[0:-1]): a missing key is passed over (prepInlets.py:32-36) *)
Definition setSpecies (v : valueDict) (sp : list string) (A : arr3) : arr3 :=
  snd (fold_left (fun st s => let '(i, A) := st in ((i + 1)%Z, match get v s with None => A | Some x => setComp A (5 + i)%Z (pyR x) end)) (removelast sp) (0%Z, A)).
(** the common shape: profile if asked for, else constants, then species *)
Definition constants (blk : blkInfo) (fam : string) (nface : Z) (v : valueDict) (comps : list (Z * string)) (species : bool) (Q : option arr3) : bcArr + bool :=
  if wantsProfile v then fromProfile blk fam nface
  else match Q with
       | None => inr false
       | Some Q => match setAll v comps zeros with
                   | None => inr false
                   | Some q => inl (mkBA (if species then setSpecies v (bi_species blk) q else q) Q None)
                   end
       end.
(** prepInlets.py:65-76: the coefficients, and the loops over ghost layers and components *)
Definition innerAlphas (e0 e1 ng : Z) (au av aw : npArr) : arr5 := fun p n a b m =>
  if ((ng <=? a) && (a <? e0 - ng) && (ng <=? b) && (b <? e1 - ng))%Z%bool
  then np_val (if (m =? 0)%Z then au else if (m =? 1)%Z then av else aw) [p; n; (a - ng)%Z; (b - ng)%Z] else 0.
Definition edgeAlphas (e0 e1 ng g m : Z) (A : arr5) : arr5 :=
  let A1 : arr5 := fun p n a b c => if ((c =? m) && (a =? g))%Z%bool then A p n ng b c else A p n a b c in
  let A2 : arr5 := fun p n a b c => if ((c =? m) && (a =? e0 - g - 1))%Z%bool then A1 p n (e0 - ng - 1)%Z b c else A1 p n a b c in
  let A3 : arr5 := fun p n a b c => if ((c =? m) && (b =? g))%Z%bool then A2 p n a ng c else A2 p n a b c in
  fun p n a b c => if ((c =? m) && (b =? e1 - g - 1))%Z%bool then A3 p n a (e1 - ng - 1)%Z c else A3 p n a b c.
Definition fillAlphas (e0 e1 ng : Z) (A : arr5) : arr5 :=
  fold_left (fun A g => fold_left (fun A m => edgeAlphas e0 e1 ng g m A) (zrange 0 3) A) (zrange 0 ng) A.
(** prep_cubicSplineSubsonicInlet (prepInlets.py:39-82); qBcVals gets its velocities from the kernel *)
Definition prepSpline (blk : blkInfo) (fam : string) (nface : Z) (v : valueDict) : bcArr + bool :=
  let '(e0, e1) := sliceExt (bi_d blk) (bi_ng blk) nface in let ng := bi_ng blk in
  match get v "T", get v "intervalDt", files (alphasName fam (bi_num blk) (Z.to_N nface)) with
  | Some T, Some dt, Some (au :: av :: aw :: _) =>
      let N := nth 1 (np_shape au) 0%Z in let sh := [4%Z; N; (e0 - 2 * ng)%Z; (e1 - 2 * ng)%Z] in
      if (shapeIs au sh && shapeIs av sh && shapeIs aw sh)%bool
      then inl (mkBA (setSpecies v (bi_species blk) (setComp zeros 4 (pyR T))) zeros (Some (fillAlphas e0 e1 ng (innerAlphas e0 e1 ng au av aw), N, pyR dt)))
      else inr false
  | _, _, _ => inr false
  end.
(** QBcVals[:, :, 1..3] = n * mDotPerUnitArea (prepInlets.py:138-174); see [massTarget] *)
Definition massQ (blk : blkInfo) (nface : Z) (v : valueDict) : option arr3 :=
  match get v "mDotPerUnitArea" with None => None | Some m => Some (massTarget (bi_d blk) (bi_ng blk) nface (bi_nI blk) (bi_nJ blk) (bi_nK blk) (pyR m)) end.
Definition velo : list (Z * string) := [(1%Z, "u"); (2%Z, "v"); (3%Z, "w")]%string.
(** the prep_ functions: prepInlets.py:4-36, 85-113, 116-182, 185-211; prepExits.py:4-25; prepWalls.py:4-114.  Other names have none (see M_ReadBcs). *)
Definition prep (ty : string) (blk : blkInfo) (fam : string) (nface : Z) (v : valueDict) : bcArr + bool :=
  let c := constants blk fam nface v in
  if String.eqb ty "constantVelocitySubsonicInlet" then c (velo ++ [(4%Z, "T"%string)]) true (Some zeros)
  else if String.eqb ty "cubicSplineSubsonicInlet" then prepSpline blk fam nface v
  else if String.eqb ty "supersonicInlet" then c ((0%Z, "p"%string) :: velo ++ [(4%Z, "T"%string)]) true (Some zeros)
  else if String.eqb ty "constantMassFluxSubsonicInlet" then c [(4%Z, "T"%string)] true (massQ blk nface v)
  else if String.eqb ty "stagnationSubsonicInlet" then c [(0%Z, "pt"%string); (4%Z, "Tt"%string)] true (Some zeros)
  else if String.eqb ty "constantPressureSubsonicExit" then c [(0%Z, "p"%string)] false (Some zeros)
  else if String.eqb ty "supersonicExit" then inl (mkBA zeros zeros None)
  else if (String.eqb ty "adiabaticNoSlipWall" || String.eqb ty "adiabaticSlipWall")%bool then inl (mkBA zeros zeros None)
  else if String.eqb ty "adiabaticMovingWall" then c velo false (Some zeros)
  else if (String.eqb ty "isoTNoSlipWall" || String.eqb ty "isoTSlipWall")%bool then c [(4%Z, "T"%string)] false (Some zeros)
  else if String.eqb ty "isoTMovingWall" then c (velo ++ [(4%Z, "T"%string)]) false (Some zeros)
  else inr true.
End Prep.
