(** Model of the file input and output: src/peregrinepy/{writers,readers}.  Definitions only.
    Simplifications: an HDF5 file is a list of named groups of named datasets; HDF5, YAML and numpy's .npy encoding are taken to give back
    the strings and numbers stored; directories are left out, every name is relative to the directory both sides are given. *)
From Coq Require Import Reals ZArith NArith String Ascii List Bool Lra.
From Verif Require Import M_Topology M_Halo M_Grid M_Metrics M_Procs.
Import ListNotations.
Open Scope Z_scope.

(** Association lists: Python dictionaries, HDF5 groups, directories *)
Definition text_dec : forall a b : text, {a = b} + {a <> b} := list_eq_dec ascii_dec.
Fixpoint assoc {A} (l : list (text * A)) (k : text) : option A :=
  match l with [] => None | (k', v) :: r => if text_dec k k' then Some v else assoc r k end.
(** d[k] = v *)
Fixpoint assign {A} (l : list (text * A)) (k : text) (v : A) : list (text * A) :=
  match l with [] => [(k, v)] | (k', v') :: r => if text_dec k k' then (k, v) :: r else (k', v') :: assign r k v end.
(** create_group / create_dataset: raises if the name exists *)
Definition create {A} (l : list (text * A)) (k : text) (v : A) : option (list (text * A)) := match assoc l k with Some _ => None | None => Some (l ++ [(k, v)]) end.
Definition t (s : string) : text := list_ascii_of_string s.
(** f"{n:06d}", f"{n:08d}" for the non-negative numbers that occur *)
Definition padded (width : nat) (n : N) : text := repeat "0"%char (width - length (printN n)) ++ printN n.

(** ** Connectivity *)
(** the value stored for one face (writeConnectivity.py:29-34) *)
Record faceDict := mkFaceDict { d_bcType : pyval; d_bcFam : pyval; d_neighbor : pyval; d_orientation : pyval }.
Definition pyStr (o : option string) : pyval := match o with None => PNone | Some s => PStr s end.
Definition pyOInt (o : option Z) : pyval := match o with None => PNone | Some z => PInt z end.
Definition faceOut (f : face) : faceDict := mkFaceDict (PStr (bcType f)) (pyStr (bcFam f)) (pyOInt (neighbor f)) (pyStr (orientation f)).
(** f"Block{nblki}", f"Face{nface}"; numbers may be negative only if the user chose so *)
Definition printZ (z : Z) : text := if z <? 0 then "-"%char :: printN (Z.abs_N z) else printN (Z.abs_N z).
Definition blockKey (n : Z) : text := t "Block" ++ printZ n.
Definition faceKey (n : Z) : text := t "Face" ++ printZ n.
Record connFile := mkConn { c_total : Z; c_blocks : list (text * list (text * faceDict)) }.
(** writeConnectivity.py:23-37 (the YAML text is not modelled) *)
Definition writeConnectivity (mb : list block) : connFile :=
  mkConn (Z.of_nat (length mb))
         (fold_left (fun conn b => assign conn (blockKey (nblki b)) (fold_left (fun bd f => assign bd (faceKey (nface f)) (faceOut f)) (faces b) [])) mb []).
(** readConnectivity.py:41-50 on one face; the setters may raise *)
Definition faceIn (f : face) (d : faceDict) : option face :=
  match set_bcType f (d_bcType d) with None => None | Some f1 =>
  match set_bcFam f1 (d_bcFam d) with None => None | Some f2 =>
  match set_neighbor f2 (d_neighbor d) with None => None | Some f3 => set_orientation f3 (d_orientation d) end end end.
Definition readBlockConn (c : connFile) (b : block) : option block :=
  match assoc (c_blocks c) (blockKey (nblki b)) with
  | None => None
  | Some bd => option_map (mkBlock (nblki b)) (mapM (fun f => match assoc bd (faceKey (nface f)) with None => None | Some d => faceIn f d end) (faces b))
  end.
(** the blocks with their connectivity, and mb.totalBlocks; None is a raised exception *)
Definition readConnectivity (c : connFile) (mb : list block) : option (list block * Z) := option_map (fun l => (l, c_total c)) (mapM (readBlockConn c) mb).

(** ** Arrays as files hold them *)
(** range(n) *)
Definition upto (n : Z) : list Z := map Z.of_nat (seq 0 (Z.to_nat n)).
(** array[lo : lo + n1, ...].ravel(order="F"): the first index runs fastest *)
Definition ravelF (n1 n2 n3 lo : Z) (a : array3 R) : list R :=
  flat_map (fun k => flat_map (fun j => map (fun i => a (lo + i) (lo + j) (lo + k)) (upto n1)) (upto n2)) (upto n3).
(** .reshape((n1, n2, n3), order="F"): ValueError if the sizes do not agree *)
Definition reshapeF (n1 n2 n3 : Z) (l : list R) : option (array3 R) :=
  if Nat.eqb (length l) (Z.to_nat (n1 * n2 * n3)) then Some (fun i j k => nth (Z.to_nat (i + n1 * (j + n2 * k))) l 0%R) else None.
(** a[lo : lo + n1, ...] = v *)
Definition setSlice (n1 n2 n3 lo : Z) (v a : array3 R) : array3 R :=
  fun i j k => if ((lo <=? i) && (i <? lo + n1) && (lo <=? j) && (j <? lo + n2) && (lo <=? k) && (k <? lo + n3))%bool then v (i - lo) (j - lo) (k - lo) else a i j k.
Inductive data := DInt (z : Z) | DReal (r : R) | DArr (l : list R).
Definition h5 := list (text * list (text * data)).
Definition disk := list (text * h5).

(** a block as the readers and writers see it; [io_ng] is 0 for blocks that are not solver blocks, whose slices are [:, :, :] *)
Record ioBlock := mkIo { io_num : N; io_dims : dims; io_solver : bool; io_ng : Z; io_xyz : Z -> array3 R; io_q : array4; io_rho : array3 R; io_species : list text; io_nrt : N; io_tme : R }.
Definition coordS (b : ioBlock) : text := t "coordinates_" ++ padded 6 (io_num b).
Definition dimS (b : ioBlock) : text := t "dimensions_" ++ padded 6 (io_num b).
Definition resS (n : N) : text := t "results_" ++ padded 6 n.
Definition coordName (c : Z) : text := if c =? 0 then t "x" else if c =? 1 then t "y" else t "z".
(** writeGrid.py:43-90 for one block; with [withHalo] the whole array is written.  [rnd] is the conversion to the precision of the file *)
Definition haloOf (withHalo : bool) (b : ioBlock) : Z := if (withHalo && io_solver b)%bool then io_ng b else 0.
Definition firstOf (withHalo : bool) (b : ioBlock) : Z := if (withHalo && io_solver b)%bool then 0 else io_ng b.
Definition gridDims (withHalo : bool) (b : ioBlock) : list (text * data) :=
  let h := haloOf withHalo b in [(t "ni", DInt (ni (io_dims b) + 2 * h)); (t "nj", DInt (nj (io_dims b) + 2 * h)); (t "nk", DInt (nk (io_dims b) + 2 * h))].
Definition gridCoords (rnd : R -> R) (withHalo : bool) (b : ioBlock) : list (text * data) :=
  let h := haloOf withHalo b in
  map (fun c => (coordName c, DArr (map rnd (ravelF (ni (io_dims b) + 2 * h) (nj (io_dims b) + 2 * h) (nk (io_dims b) + 2 * h) (firstOf withHalo b) (io_xyz b c))))) [0; 1; 2].
Definition writeGridBlock (rnd : R -> R) (withHalo : bool) (gf : h5) (b : ioBlock) : option h5 :=
  match create gf (coordS b) (gridCoords rnd withHalo b) with None => None | Some gf' => create gf' (dimS b) (gridDims withHalo b) end.
Fixpoint foldM {A B} (f : A -> B -> option A) (l : list B) (a : A) : option A := match l with [] => Some a | b :: r => match f a b with Some a' => foldM f r a' | None => None end end.
(** writeGrid.py:37-98; "w" truncates an existing file *)
Definition writeGrid (rnd : R -> R) (withHalo lump : bool) (mb : list ioBlock) (d : disk) : option disk :=
  if lump then option_map (assign d (t "g.h5")) (foldM (writeGridBlock rnd withHalo) mb [])
  else foldM (fun d b => option_map (assign d (t "g." ++ padded 6 (io_num b) ++ t ".h5")) (writeGridBlock rnd withHalo [] b)) mb d.
Definition getInt (o : option data) : option Z := match o with Some (DInt z) => Some z | _ => None end.
Definition getArr (o : option data) : option (list R) := match o with Some (DArr l) => Some l | _ => None end.
Definition getReal (o : option data) : option R := match o with Some (DReal r) => Some r | _ => None end.
Definition inGroup (f : h5) (g k : text) : option data := match assoc f g with Some ds => assoc ds k | None => None end.
(** readGrid.py:38-68 for one block; initGridArrays gives zeros *)
Definition readGridBlock (lump : bool) (d : disk) (b : ioBlock) : option ioBlock :=
  match assoc d (if lump then t "g.h5" else t "g." ++ padded 6 (io_num b) ++ t ".h5") with
  | None => None
  | Some gf =>
    match getInt (inGroup gf (dimS b) (t "ni")), getInt (inGroup gf (dimS b) (t "nj")), getInt (inGroup gf (dimS b) (t "nk")) with
    | Some n1, Some n2, Some n3 =>
      match mapM (fun c => match getArr (inGroup gf (coordS b) (coordName c)) with None => None | Some l => reshapeF n1 n2 n3 l end) [0; 1; 2] with
      | Some [x; y; z] =>
          Some (mkIo (io_num b) (mkDims n1 n2 n3) (io_solver b) (io_ng b)
                     (fun c => setSlice n1 n2 n3 (io_ng b) (if c =? 0 then x else if c =? 1 then y else z) (fun _ _ _ => 0%R)) (io_q b) (io_rho b) (io_species b) (io_nrt b) (io_tme b))
      | _ => None
      end
    | _, _, _ => None
    end
  end.

(** ** Restart files *)
Definition baseNames : list text := map t ["p"; "u"; "v"; "w"; "T"]%string.
(** ["p", "u", "v", "w", "T"] + speciesNames[0:-1] *)
Definition varNames (species : list text) : list text := baseNames ++ removelast species.
Definition cc (withHalo : bool) (b : ioBlock) (n : Z) : Z := n + 2 * haloOf withHalo b - 1.
Definition flat (withHalo : bool) (b : ioBlock) (a : array3 R) : list R :=
  ravelF (cc withHalo b (ni (io_dims b))) (cc withHalo b (nj (io_dims b))) (cc withHalo b (nk (io_dims b))) (firstOf withHalo b) a.
(** np.sum(q[..., 5:], axis=-1) for an array with 5 + ns - 1 columns *)
Definition speciesSum (ns : nat) (q : array4) : array3 R := fun i j k => fold_right (fun c s => (q i j k (5 + c)%Z + s)%R) 0%R (upto (Z.of_nat ns - 1)).
(** the datasets of one block and their contents (writeRestart.py:71, 88-115, parallelWriter.py:226-242): rho for solver blocks, the primitive variables, and the last species
    from the others *)
Definition lastName (species : list text) : text := last species [].
Definition lastSpecies (b : ioBlock) : array3 R := if Nat.eqb (length (io_species b)) 1 then fun _ _ _ => 1%R else fun i j k => (1 - speciesSum (length (io_species b)) (io_q b) i j k)%R.
Definition resultData (rnd : R -> R) (withHalo : bool) (b : ioBlock) : list (text * data) :=
  (if io_solver b then [(t "rho", DArr (map rnd (flat withHalo b (io_rho b))))] else []) ++
  map (fun '(j, name) => (name, DArr (map rnd (flat withHalo b (fun x y z => io_q b x y z j))))) (combine (upto (Z.of_nat (length (varNames (io_species b))))) (varNames (io_species b))) ++
  [(lastName (io_species b), DArr (map rnd (flat withHalo b (lastSpecies b))))].
(** create_dataset raises on a repeated name *)
Definition group (ds : list (text * data)) : option (list (text * data)) := foldM (fun g '(k, v) => create g k v) ds [].
Definition iterData (nrt : N) (tme : R) : list (text * data) := [(t "nrt", DInt (Z.of_N nrt)); (t "tme", DReal tme)].
(** writeRestart.py:78-86: the first block written to a file leaves the iteration number and time *)
Definition withIter (qf : h5) (nrt : N) (tme : R) : h5 := match assoc qf (t "iter") with Some _ => qf | None => qf ++ [(t "iter", iterData nrt tme)] end.
Definition writeResBlock (rnd : R -> R) (withHalo : bool) (qf : h5) (b : ioBlock) : option h5 :=
  match group (resultData rnd withHalo b) with None => None | Some g => create (withIter qf (io_nrt b) (io_tme b)) (resS (io_num b)) g end.
(** restartMetaData.getVarFileName (writeMetaData.py:150-160) and the reader's names (readRestart.py:32-37, 51-58) *)
Definition varFileName (lump animate : bool) (nrt : N) (num : N) : text :=
  if lump then (if animate then t "q." ++ padded 8 nrt ++ t ".h5" else t "q.h5")
  else if animate then t "q." ++ padded 8 nrt ++ t "." ++ padded 6 num ++ t ".h5" else t "q." ++ padded 6 num ++ t ".h5".
(** writeRestart.py:51-143; mbNrt is mb.nrt *)
Definition writeRestart (rnd : R -> R) (withHalo lump animate : bool) (mbNrt : N) (mb : list ioBlock) (d : disk) : option disk :=
  if lump then option_map (assign d (varFileName true animate mbNrt 0)) (foldM (writeResBlock rnd withHalo) mb [])
  else foldM (fun d b => option_map (assign d (varFileName false animate (io_nrt b) (io_num b))) (writeResBlock rnd withHalo [] b)) mb d.
(** readRestart.py:77-86: the halo of a solver block, one axis and side after the other; the arrays have n - 1 + 2 ng cells along an axis *)
Definition fillHalo (d : dims) (ng : Z) (q : array4) : array4 :=
  let q1 : array4 := fun i j k l => if (i <? ng) then q ng j k l else q i j k l in
  let q2 : array4 := fun i j k l => if (ni d - 1 + ng <=? i) then q1 (ni d - 1 + ng - 1) j k l else q1 i j k l in
  let q3 : array4 := fun i j k l => if (j <? ng) then q2 i ng k l else q2 i j k l in
  let q4 : array4 := fun i j k l => if (nj d - 1 + ng <=? j) then q3 i (nj d - 1 + ng - 1) k l else q3 i j k l in
  let q5 : array4 := fun i j k l => if (k <? ng) then q4 i j ng l else q4 i j k l in
  fun i j k l => if (nk d - 1 + ng <=? k) then q5 i j (nk d - 1 + ng - 1) l else q5 i j k l.
(** readRestart.py:63-70: a variable that is missing stays as initRestartArrays left it (zero); a wrong size raises *)
Definition readVar (qf : h5) (b : ioBlock) (q : array4) (iv : Z * text) : option array4 :=
  match assoc qf (resS (io_num b)) with
  | None => Some q
  | Some ds => match assoc ds (snd iv) with
    | None => Some q
    | Some (DArr l) => match reshapeF (ni (io_dims b) - 1) (nj (io_dims b) - 1) (nk (io_dims b) - 1) l with
        | None => None
        | Some v => Some (fun i j k l => if l =? fst iv then setSlice (ni (io_dims b) - 1) (nj (io_dims b) - 1) (nk (io_dims b) - 1) (io_ng b) v (fun i j k => q i j k l) i j k else q i j k l)
        end
    | Some _ => None
    end
  end.
Definition readRestartBlock (lump animate : bool) (nrt : N) (d : disk) (b : ioBlock) : option ioBlock :=
  match assoc d (varFileName lump animate nrt (io_num b)) with
  | None => None
  | Some qf =>
    match getInt (inGroup qf (t "iter") (t "nrt")), getReal (inGroup qf (t "iter") (t "tme")) with
    | Some n, Some tm =>
      match foldM (readVar qf b) (combine (upto (Z.of_nat (length (varNames (io_species b))))) (varNames (io_species b))) (fun _ _ _ _ => 0%R) with
      | None => None
      | Some q => Some (mkIo (io_num b) (io_dims b) (io_solver b) (io_ng b) (io_xyz b) (if io_solver b then fillHalo (io_dims b) (io_ng b) q else q) (io_rho b) (io_species b) (Z.to_N n) tm)
      end
    | _, _ => None
    end
  end.

(** ** Parallel output (parallelWriter.py) *)
Definition ext := (Z * Z * Z)%type.
Definition extOf (b : ioBlock) : ext := (ni (io_dims b), nj (io_dims b), nk (io_dims b)).
(** lines 67-114 on rank 0: the extents in rank order, paired with the block numbers of blocksForProcs and sorted by block number (insertion sort: any sort of distinct
    numbers gives the same list) *)
Fixpoint insertByNum (x : Z * ext) (l : list (Z * ext)) : list (Z * ext) := match l with [] => [x] | y :: r => if fst x <=? fst y then x :: l else y :: insertByNum x r end.
Definition sortByNum (l : list (Z * ext)) : list (Z * ext) := fold_right insertByNum [] l.
Definition totalNiList (blocksForProcs : list (list Z)) (ranks : list (list ioBlock)) : list ext :=
  map snd (sortByNum (combine (concat blocksForProcs) (map extOf (concat ranks)))).
(** parallelWriter.py:173-197: the lumped file with every dataset of every block, zero-filled, sized from the meta data; speciesNames are those of the first block.  The meta data hold
    "nk nj ni" (writeMetaData.py:127), which line 190 unpacks in this order as ni, nj, nk *)
Definition emptyGroup (names : list text) (e : ext) : list (text * data) :=
  let '(a, b, c) := e in map (fun n => (n, DArr (repeat 0%R (Z.to_nat ((a - 1) * (b - 1) * (c - 1)))))) names.
Definition solverNames (species : list text) : list text := t "rho" :: baseNames ++ species.
Definition lumpedFrame (species : list text) (nrt : N) (tme : R) (exts : list ext) : option h5 :=
  foldM (fun qf '(n, e) => let '(a, b, c) := e in match group (emptyGroup (solverNames species) (c, b, a)) with None => None | Some g => create qf (resS (N.of_nat n)) g end) (combine (seq 0 (length exts)) exts)
        [(t "iter", iterData nrt tme)].
(** parallelWriter.py:226-242: dset[:] = ... raises if the size differs *)
Fixpoint fillGroup (g : list (text * data)) (ds : list (text * data)) : option (list (text * data)) :=
  match ds with
  | [] => Some g
  | (k, DArr l) :: r => match assoc g k with
      | Some (DArr old) => if Nat.eqb (length old) (length l) then fillGroup (assign g k (DArr l)) r else None
      | _ => None
      end
  | _ => None
  end.
Definition fillBlock (rnd : R -> R) (qf : h5) (b : ioBlock) : option h5 :=
  match assoc qf (resS (io_num b)) with None => None | Some g => option_map (assign qf (resS (io_num b))) (fillGroup g (resultData rnd false b)) end.
(** parallelWriter.py:161-248; [order]: the blocks of all ranks in the order their data happen to be written *)
Definition parallelWriteRestart (rnd : R -> R) (lump animate : bool) (mbNrt : N) (mbTme : R) (exts : list ext) (species : list text) (order : list ioBlock) (d : disk) : option disk :=
  if lump then
    match lumpedFrame species mbNrt mbTme exts with None => None | Some f => option_map (assign d (varFileName true animate mbNrt 0)) (foldM (fillBlock rnd) order f) end
  else foldM (fun d b => match group (emptyGroup (solverNames (io_species b)) (extOf b)) with None => None
                         | Some g => option_map (assign d (varFileName false animate (io_nrt b) (io_num b)))
                                                (fillBlock rnd [(t "iter", iterData mbNrt mbTme); (resS (io_num b), g)] b) end) order d.

(** ** The XDMF files that describe the results (writeMetaData.py) *)
(** restartMetaData.getVarFileH5Location (lines 138-148), written out per case as in the code *)
Definition varLocation (lump animate : bool) (nrt num : N) (var : text) : text :=
  if lump then (if animate then t "q." ++ padded 8 nrt ++ t ".h5:/results_" ++ padded 6 num ++ t "/" ++ var else t "q.h5:/results_" ++ padded 6 num ++ t "/" ++ var)
  else if animate then t "q." ++ padded 8 nrt ++ t "." ++ padded 6 num ++ t ".h5:/results_" ++ padded 6 num ++ t "/" ++ var
  else t "q." ++ padded 6 num ++ t ".h5:/results_" ++ padded 6 num ++ t "/" ++ var.
(** one data item: its dimensions, slowest index first, and where its values are *)
Record xItem := mkItem { x_dims : Z * Z * Z; x_loc : text }.
(** one block of the tree: its topology, its time, its scalars and the components of its vector *)
Record xGrid := mkXGrid { xg_num : N; xg_topo : Z * Z * Z; xg_time : R; xg_scalars : list (text * xItem); xg_velocity : list xItem }.
(** addBlockElem, addScalarToBlockElem, addVectorToBlockElem (lines 123-136, 162-187) for one block; [h] is the halo written *)
Definition xdmfBlock (lump animate : bool) (nrt : N) (tme : R) (scalars : list text) (num : N) (e : ext) (h : Z) : xGrid :=
  let '(a, b, c) := e in let item v := mkItem (c + 2 * h - 1, b + 2 * h - 1, a + 2 * h - 1) (varLocation lump animate nrt num v) in
  mkXGrid num (c + 2 * h, b + 2 * h, a + 2 * h) tme (map (fun v => (v, item v)) scalars) (map item [t "u"; t "v"; t "w"]).
(** writeRestart.py:41-49, 117-132 *)
Definition xdmfRestart (withHalo lump animate : bool) (mbNrt : N) (mbTme : R) (mb : list ioBlock) : list xGrid :=
  map (fun b => xdmfBlock lump animate mbNrt mbTme ((if io_solver b then [t "rho"] else []) ++ [t "p"; t "T"] ++ io_species b) (io_num b) (extOf b) (haloOf withHalo b)) mb.
(** parallelWriter.py:119-158 and 250-264: built once from the extents, then time and locations are renewed at each output *)
Definition xdmfParallel (lump animate : bool) (mbNrt : N) (mbTme : R) (species : list text) (exts : list ext) : list xGrid :=
  map (fun '(n, e) => xdmfBlock lump animate mbNrt mbTme ([t "rho"; t "p"; t "T"] ++ species) (N.of_nat n) e 0) (combine (seq 0 (length exts)) exts).
(** writeArbitraryArray.py:42-51 with arbitraryMetaData.__init__ (lines 197-201), which hands tme=0.0 to its parent: the time of every block of the serial file *)
Definition arbitraryTime (mbTme : R) : R := 0.
(** parallelWriter.py:356-360 sets it again *)
Definition arbitraryTimeParallel (mbTme : R) : R := mbTme.

(** ** Species sums (restartBlock.py:62-84, restart.py:48-66) *)
(** what verifySpeciesSum prints (a warning or nothing) and does; [bad]: np.max(summation) > 1 over the block's cells, which have indices lo..hi *)
Definition cells (n : Z) : list Z := upto (n - 1).
Definition anyAbove (d : dims) (s : array3 R) : bool :=
  existsb (fun i => existsb (fun j => existsb (fun k => if Rlt_dec 1 (s i j k) then true else false) (cells (nk d))) (cells (nj d))) (cells (ni d)).
Definition normalizeQ (ns : nat) (q : array4) : array4 :=
  fun i j k l => if 5 <=? l then (if Rlt_dec 1 (speciesSum ns q i j k) then (q i j k l / speciesSum ns q i j k)%R else q i j k l) else q i j k l.
(** (new q, warning printed, returned value); the function never returns True *)
Definition verifySpeciesSum (normalize : bool) (ns : nat) (d : dims) (q : array4) : array4 * bool * bool :=
  let bad := anyAbove d (speciesSum ns q) in ((if (bad && normalize)%bool then normalizeQ ns q else q), bad, false).
(** checkSpeciesSum: the new blocks, the warnings per block, and whether the closing message (line 58-66) is printed *)
Definition checkSpeciesSum (normalize : bool) (ns : nat) (mb : list (dims * array4)) : list array4 * list bool * bool :=
  let r := map (fun '(d, q) => verifySpeciesSum normalize ns d q) mb in
  (map (fun x => fst (fst x)) r, map (fun x => snd (fst x)) r, existsb (fun x => negb (snd x)) r).

(** ** Dual time (writeDualTimeQnm1.py, integrators/dualTime.py:121-142): the interior of Qnm1, one .npy file per block *)
Definition qnm1Name (animate : bool) (nrt num : N) : text :=
  if animate then t "Qnm1." ++ padded 8 nrt ++ t "." ++ padded 6 num ++ t ".npy" else t "Qnm1." ++ padded 6 num ++ t ".npy".
Record npyArr := mkNpy { npy_dims : dims; npy_val : array4 }.
Record dualBlock := mkDual { db_num : N; db_dims : dims; db_ng : Z; db_Q : array4; db_Qn : array4; db_Qnm1 : array4 }.
Definition writeQnm1 (animate : bool) (nrt : N) (mb : list dualBlock) (d : list (text * npyArr)) : list (text * npyArr) :=
  fold_left (fun d b => assign d (qnm1Name animate nrt (db_num b)) (mkNpy (db_dims b) (fun i j k l => db_Qnm1 b (i + db_ng b) (j + db_ng b) (k + db_ng b) l))) mb d.
Definition setSlice4 (d : dims) (lo : Z) (v a : array4) : array4 := fun i j k l => setSlice (ni d - 1) (nj d - 1) (nk d - 1) lo (fun i j k => v i j k l) (fun i j k => a i j k l) i j k.
Definition initializeDualTime (animate : bool) (nrt : N) (d : list (text * npyArr)) (b : dualBlock) : option dualBlock :=
  if (0 <? nrt)%N then
    match assoc d (qnm1Name animate nrt (db_num b)) with
    | Some a => if (Z.eqb (ni (npy_dims a)) (ni (db_dims b)) && Z.eqb (nj (npy_dims a)) (nj (db_dims b)) && Z.eqb (nk (npy_dims a)) (nk (db_dims b)))%bool
                then Some (mkDual (db_num b) (db_dims b) (db_ng b) (db_Q b) (db_Q b) (setSlice4 (db_dims b) (db_ng b) (npy_val a) (db_Qnm1 b))) else None
    | None => Some (mkDual (db_num b) (db_dims b) (db_ng b) (db_Q b) (db_Q b) (db_Q b))
    end
  else Some (mkDual (db_num b) (db_dims b) (db_ng b) (db_Q b) (db_Q b) (db_Q b)).

(** ** Interrupted output *)
(** h5py.File(name, "w") (writeRestart.py:54, 76, parallelWriter.py:178, 212): from this moment until the datasets are written the file is there without its contents *)
Definition openForWriting (d : disk) (name : text) : disk := assign d name [].
(** runPeregrine.py:69-82 with the dual-time integrator: the restart first, the Qnm1 arrays after; [done] of the blocks have their Qnm1 file when the program stops *)
Definition interruptedQnm1 (animate : bool) (nrt : N) (mb : list dualBlock) (done : nat) (d : list (text * npyArr)) : list (text * npyArr) := writeQnm1 animate nrt (firstn done mb) d.
