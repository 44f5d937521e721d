(** Model of the output of single arrays: writers/writeArbitraryArray.py and writers/parallelWriter.py:parallelWriteArbitraryArray, with the arbitraryMetaData of
    writers/writeMetaData.py.  Definitions only.  Files are those of M_Io; None is a raised exception (what the files hold by then is not modelled). *)
From Coq Require Import Reals ZArith NArith String Ascii List Bool.
From Verif Require Import M_Topology M_Halo M_Grid M_Metrics M_Procs M_Io.
Import ListNotations.
Local Open Scope Z_scope.

(** a numpy array of a block: the first three extents, the length of the fourth axis if there is one, and the values (the index of the fourth axis is last; 0 without one) *)
Record arr := mkArr { a_dims : Z * Z * Z; a_comps : option nat; a_val : array4 }.
(** a solver block with its dictionary blk.array; None stands for a key that is missing or an array that was never allocated (None has no .shape) *)
Record arrBlock := mkArrB { ab_io : ioBlock; ab_array : text -> option arr }.

(** the names of the datasets (writeArbitraryArray.py:83-88, parallelWriter.py:60-65, 283-288) *)
Definition arrNames (name : text) (a : arr) : list text :=
  match a_comps a with Some n => map (fun i => name ++ t "_" ++ printN (N.of_nat i)) (seq 0 n) | None => [name] end.
(** the length of a[ng:-ng] along an axis of s entries; [0:-0] is empty *)
Definition inner (ng s : Z) : Z := if ng =? 0 then 0 else Z.max 0 (s - 2 * ng).
(** array[writeS + (j,)].ravel(order="F") and array[writeS].ravel(order="F") (writeArbitraryArray.py:57-62, 94-97, parallelWriter.py:345-350).  [four]: the branch for arrays of four
    axes is taken; it fails on an array of three, and the other branch gives a wrong size on an array of four (unless the fourth axis has one entry) *)
Definition sliceF (whole : bool) (ng : Z) (four : bool) (a : arr) (j : nat) : option (list R) :=
  let '(s1, s2, s3) := a_dims a in
  let n s := if whole then s else inner ng s in
  let l := ravelF (n s1) (n s2) (n s3) (if whole then 0 else ng) (fun x y z => a_val a x y z (Z.of_nat j)) in
  match a_comps a with
  | Some c => if four then (if Nat.ltb j c then Some l else None) else if Nat.eqb c 1 then Some l else None
  | None => if four then None else Some l
  end.
(** dset[:] = l for a dataset of n values: h5py takes the same number of values, or repeats a single one *)
Definition fitTo (n : nat) (l : list R) : option (list R) := if Nat.eqb (length l) n then Some l else match l with [x] => Some (repeat x n) | _ => None end.
Definition isFour (a : arr) : bool := match a_comps a with Some _ => true | None => false end.
Definition numbered (names : list text) : list (nat * text) := combine (seq 0 (length names)) names.

(** ** writeArbitraryArray.py *)
(** lines 57-64: the halo written, and the size of each dataset *)
Definition arrHalo (withHalo : bool) (b : arrBlock) : Z := if withHalo then io_ng (ab_io b) else 0.
Definition arrExtent (withHalo : bool) (b : arrBlock) : nat :=
  let h := arrHalo withHalo b in let d := io_dims (ab_io b) in Z.to_nat ((ni d + 2 * h - 1) * (nj d + 2 * h - 1) * (nk d + 2 * h - 1)).
(** lines 90-97 *)
Definition arrData (rnd : R -> R) (withHalo : bool) (name : text) (b : arrBlock) (a : arr) : option (list (text * data)) :=
  mapM (fun '(j, nm) => match sliceF withHalo (io_ng (ab_io b)) (isFour a) a j with
                        | None => None
                        | Some l => option_map (fun l' => (nm, DArr (map rnd l'))) (fitTo (arrExtent withHalo b) l) end) (numbered (arrNames name a)).
(** lines 71-97 *)
Definition writeArrBlock (rnd : R -> R) (withHalo : bool) (name : text) (qf : h5) (b : arrBlock) : option h5 :=
  match ab_array b name with
  | None => None
  | Some a => match arrData rnd withHalo name b a with
    | None => None
    | Some ds => match group ds with None => None | Some g => create (withIter qf (io_nrt (ab_io b)) (io_tme (ab_io b))) (resS (io_num (ab_io b))) g end
    end
  end.
(** arbitraryMetaData.getVarFileName (writeMetaData.py:216-227) *)
Definition arrFileName (name : text) (lump animate : bool) (nrt num : N) : text :=
  if lump then (if animate then name ++ t "." ++ padded 8 nrt ++ t ".h5" else name ++ t ".h5")
  else if animate then name ++ t "." ++ padded 8 nrt ++ t "." ++ padded 6 num ++ t ".h5" else name ++ t "." ++ padded 6 num ++ t ".h5".
(** arbitraryMetaData.getVarFileH5Location (writeMetaData.py:203-214), written out per case as in the code *)
Definition arrLocation (name : text) (lump animate : bool) (nrt num : N) (var : text) : text :=
  if lump then (if animate then name ++ t "." ++ padded 8 nrt ++ t ".h5:/results_" ++ padded 6 num ++ t "/" ++ var else name ++ t ".h5:/results_" ++ padded 6 num ++ t "/" ++ var)
  else if animate then name ++ t "." ++ padded 8 nrt ++ t "." ++ padded 6 num ++ t ".h5:/results_" ++ padded 6 num ++ t "/" ++ var
  else name ++ t "." ++ padded 6 num ++ t ".h5:/results_" ++ padded 6 num ++ t "/" ++ var.
(** lines 35-112, the data files; mbNrt is mb.nrt *)
Definition writeArbitrary (rnd : R -> R) (withHalo lump animate : bool) (mbNrt : N) (name : text) (mb : list arrBlock) (d : disk) : option disk :=
  if lump then option_map (assign d (arrFileName name true animate mbNrt 0)) (foldM (writeArrBlock rnd withHalo name) mb [])
  else foldM (fun d b => option_map (assign d (arrFileName name false animate (io_nrt (ab_io b)) (io_num (ab_io b)))) (writeArrBlock rnd withHalo name [] b)) mb d.
(** addBlockElem and addScalarToBlockElem (writeMetaData.py:123-136, 162-171) for one block; the file has no vector *)
Definition xdmfArrBlock (name : text) (lump animate : bool) (nrt : N) (tme : R) (names : list text) (num : N) (e : ext) (h : Z) : xGrid :=
  let '(a, b, c) := e in
  mkXGrid num (c + 2 * h, b + 2 * h, a + 2 * h) tme
          (map (fun v => (v, mkItem (c + 2 * h - 1, b + 2 * h - 1, a + 2 * h - 1) (arrLocation name lump animate nrt num v))) names) [].
(** lines 42-51, 99-112: the XDMF file *)
Definition xdmfArbitrary (withHalo lump animate : bool) (mbNrt : N) (mbTme : R) (name : text) (mb : list arrBlock) : list xGrid :=
  map (fun b => xdmfArrBlock name lump animate mbNrt (arbitraryTime mbTme) (match ab_array b name with Some a => arrNames name a | None => [] end)
                             (io_num (ab_io b)) (extOf (ab_io b)) (arrHalo withHalo b)) mb.

(** ** parallelWriteArbitraryArray (parallelWriter.py:270-367) *)
(** lines 282-288: every rank takes the shape of its first block's array; mb[0] fails on a rank that has no block.  The result pairs each block with the array that decided the names
    used for it *)
Definition rankTasks (name : text) (rank : list arrBlock) : option (list (arr * arrBlock)) :=
  match rank with [] => None | b :: _ => match ab_array b name with None => None | Some a => Some (map (fun b => (a, b)) rank) end end.
Definition allTasks (name : text) (ranks : list (list arrBlock)) : option (list (arr * arrBlock)) := option_map (@concat _) (mapM (rankTasks name) ranks).
(** lines 291-312: the lumped file, zero-filled; NumberOfElements of the meta data is "nk nj ni" (writeMetaData.py:127).  All ranks make these calls together: they use the names of the
    first block of the first rank here *)
Definition arrFrame (names : list text) (nrt : N) (tme : R) (exts : list ext) : option h5 :=
  foldM (fun qf '(n, e) => let '(a, b, c) := e in match group (emptyGroup names (c, b, a)) with None => None | Some g => create qf (resS (N.of_nat n)) g end) (combine (seq 0 (length exts)) exts)
        [(t "iter", iterData nrt tme)].
(** lines 341-350 *)
Fixpoint fillArr (rnd : R -> R) (ng : Z) (four : bool) (a : arr) (l : list (nat * text)) (g : list (text * data)) : option (list (text * data)) :=
  match l with
  | [] => Some g
  | (j, nm) :: r => match assoc g nm, sliceF false ng four a j with
      | Some (DArr old), Some v => match fitTo (length old) v with Some v' => fillArr rnd ng four a r (assign g nm (DArr (map rnd v'))) | None => None end
      | _, _ => None
      end
  end.
Definition fillArrBlock (rnd : R -> R) (name : text) (qf : h5) (x : arr * arrBlock) : option h5 :=
  let '(first, b) := x in
  match ab_array b name with
  | None => None
  | Some a => match assoc qf (resS (io_num (ab_io b))) with
    | None => None
    | Some g => option_map (assign qf (resS (io_num (ab_io b)))) (fillArr rnd (io_ng (ab_io b)) (isFour first) a (numbered (arrNames name first)) g)
    end
  end.
(** lines 290-356; [shuffle]: the order in which the blocks of all ranks happen to be written *)
Definition parallelWriteArbitrary (rnd : R -> R) (lump animate : bool) (mbNrt : N) (mbTme : R) (name : text) (exts : list ext) (shuffle : list (arr * arrBlock) -> list (arr * arrBlock))
    (ranks : list (list arrBlock)) (d : disk) : option disk :=
  match allTasks name ranks with
  | None => None
  | Some tasks =>
    if lump then
      match tasks with
      | [] => None
      | (first, _) :: _ =>
        match arrFrame (arrNames name first) mbNrt mbTme exts with
        | None => None
        | Some f => option_map (assign d (arrFileName name true animate mbNrt 0)) (foldM (fillArrBlock rnd name) (shuffle tasks) f)
        end
      end
    else foldM (fun d '(first, b) => option_map (assign d (arrFileName name false animate (io_nrt (ab_io b)) (io_num (ab_io b))))
             (match group (emptyGroup (arrNames name first) (extOf (ab_io b))) with None => None
              | Some g => fillArrBlock rnd name [(t "iter", iterData mbNrt mbTme); (resS (io_num (ab_io b)), g)] (first, b) end)) (shuffle tasks) d
  end.
(** registerParallelMetaData with an array name (lines 60-65, 130-150) and its renewal at each output (lines 358-367) *)
Definition xdmfParallelArbitrary (lump animate : bool) (mbNrt : N) (mbTme : R) (names : list text) (name : text) (exts : list ext) : list xGrid :=
  map (fun '(n, e) => xdmfArrBlock name lump animate mbNrt (arbitraryTimeParallel mbTme) names (N.of_nat n) e 0) (combine (seq 0 (length exts)) exts).
