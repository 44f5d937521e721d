(** Model of the interpolation of results between grids: src/peregrinepy/interpolation/{bounds,blocksToBlock}.py and utilities/interpolate.py.  Definitions only.
    A block's array q is given per variable as the list of its cells in ravel() order; a block's cell centres as a list of points.  The scipy objects are parameters: the
    interpolant (whatever its kind and smoothing) maps the source values to one value per target cell, the Delaunay object says which points are inside. *)
From Coq Require Import Reals ZArith List Bool Lra.
From Verif Require Import M_Procs.
Import ListNotations.
Open Scope R_scope.

Definition values := list R.
(** np.max, np.min of a list that is not empty; numpy raises ValueError on an empty one *)
Definition maxOf (x : R) (l : values) : R := fold_left Rmax l x.
Definition minOf (x : R) (l : values) : R := fold_left Rmin l x.
(** np.where(v > c, c, v), np.where(v < c, c, v) (blocksToBlock.py:72-73) *)
Definition whereAbove (c : R) (v : values) : values := map (fun x => if Rlt_dec c x then c else x) v.
Definition whereBelow (c : R) (v : values) : values := map (fun x => if Rlt_dec x c then c else x) v.
(** blocksToBlock.py:47-75 for one variable: the source values of all blocks one after the other *)
Definition interpVar (interp : values -> values) (from : list values) (to : values) : option values :=
  match concat from with
  | [] => None
  | x :: l => let v := interp (x :: l) in
              let v1 := whereAbove (maxOf x l) v in let v2 := whereBelow (minOf x l) v1 in
              if Nat.eqb (List.length v2) (List.length to) then Some v2 else None
  end.
(** blocksToBlock.py:46-75; a source block is its list of variables; variable i of every source block (IndexError if one has fewer), variables of the target beyond those of the first source
    block are left alone (IndexError if it has fewer) *)
Definition blkq := list values.
Fixpoint interpVars (interp : values -> values) (from : list blkq) (nvars : nat) (i : nat) (to : blkq) : option blkq :=
  match nvars with
  | O => Some to
  | S n => match to with
           | [] => None
           | t :: r => match mapM (fun b => nth_error b i) from with
               | None => None
               | Some src => match interpVar interp src t with
                   | None => None
                   | Some v => option_map (cons v) (interpVars interp from n (S i) r)
                   end
               end
           end
  end.
Definition blocksToBlock (interp : values -> values) (from : list blkq) (to : blkq) : option blkq :=
  match from with [] => None | b :: _ => interpVars interp from (List.length b) 0 to end.

(** ** bounds.findBounds *)
Definition pt := (R * R * R)%type.
Definition px (p : pt) : R := fst (fst p). Definition py (p : pt) : R := snd (fst p). Definition pz (p : pt) : R := snd p.
(** np.min / np.max over one coordinate of a list of points (bounds.py:251-258, 268-274) *)
Definition lo (f : pt -> R) (p : pt) (l : list pt) : R := minOf (f p) (map f l).
Definition hi (f : pt -> R) (p : pt) (l : list pt) : R := maxOf (f p) (map f l).
Definition gtb (a b : R) : bool := if Rlt_dec b a then true else false.
(** bounds.py:279-287: [and] binds tighter than [or], so that only the last test is switched off by verboseSearch *)
Definition skipped (verbose : bool) (p : pt) (from : list pt) (q : pt) (to : list pt) : bool :=
  gtb (lo px p from) (hi px q to) || gtb (lo px q to) (hi px p from) || gtb (lo py p from) (hi py q to) || gtb (lo py q to) (hi py p from) ||
  gtb (lo pz p from) (hi pz q to) || (gtb (lo pz q to) (hi pz p from) && negb verbose).
(** a source block: its number and its grid points (never empty); a target block: its cell centres (never empty) *)
Record sblock := mkSB { sb_num : Z; sb_p : pt; sb_pts : list pt }.
Definition sb_all (b : sblock) : list pt := sb_p b :: sb_pts b.
(** bounds.py:276-296 for one target block; [inHull b x] is the answer of ptsInBlkBounds (lines 6-220) for one point; [found] marks the points found so far *)
Fixpoint search (inHull : sblock -> pt -> bool) (verbose : bool) (q : pt) (to : list pt) (from : list sblock) (found : list bool) (acc : list Z) : list Z :=
  match from with
  | [] => acc
  | b :: r =>
    if skipped verbose (sb_p b) (sb_pts b) q to then search inHull verbose q to r found acc
    else let ins := map (inHull b) (q :: to) in
         let hit := existsb (fun x => x) ins in
         let acc' := if hit then acc ++ [sb_num b] else acc in
         let found' := if hit then map (fun '(x, y) => x || y) (combine found ins) else found in
         if negb verbose && forallb (fun x => x) found' then acc' else search inHull verbose q to r found' acc'
  end.
Definition findBounds (inHull : sblock -> pt -> bool) (verbose : bool) (mbFrom : list sblock) (mbTo : list (pt * list pt)) : list (list Z) :=
  map (fun '(q, to) => search inHull verbose q to mbFrom (repeat false (S (List.length to))) []) mbTo.

(** ** utilities/interpolate.py:140-152 and 155-156: bound, interpolate every target block, then normalise the species of cells whose sum exceeds one *)
Definition isNil {A} (l : list A) : bool := match l with [] => true | _ => false end.
(** column sums: np.sum(q[..., 5:], axis=-1), given the species variables *)
Definition addCols (a b : values) : values := map (fun '(x, y) => x + y) (combine a b).
Definition sums (n : nat) (sp : list values) : values := fold_right addCols (repeat 0 n) sp.
(** restartBlock.py:68-83 with normalize=True *)
Definition normalizeSpecies (ncells : nat) (q : blkq) : blkq :=
  let sp := skipn 5 q in let s := sums ncells sp in
  firstn 5 q ++ map (fun v => map (fun '(x, t) => if Rlt_dec 1 t then x / t else x) (combine v s)) sp.
Definition interpolate (interp : nat -> values -> values) (inHull : sblock -> pt -> bool) (verbose : bool) (nspecies : nat)
    (mbFrom : list (sblock * blkq)) (mbTo : list (pt * list pt * blkq)) : option (list blkq) :=
  let bounds := findBounds inHull verbose (map fst mbFrom) (map fst mbTo) in
  if existsb isNil bounds then None
  else match mapM (fun ns => mapM (fun n => option_map snd (find (fun b => Z.eqb (sb_num (fst b)) n) mbFrom)) ns) bounds with
       | None => None
       | Some srcs =>
         match mapM (fun '(k, (src, (_, q))) => blocksToBlock (interp k) src q) (combine (seq 0 (List.length srcs)) (combine srcs mbTo)) with
         | None => None
         | Some out => Some (if Nat.ltb 1 nspecies then map (fun '(q, (_, to, _)) => normalizeSpecies (S (List.length to)) q) (combine out mbTo) else out)
         end
       end.
