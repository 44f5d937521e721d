(** Model of the block distribution: utilities/loadBalancer.py, src/peregrinepy/readers/readBlocksForProcs.py and the checks of
    src/peregrinepy/bootstrapCase.py:14-93.  Definitions only.  Files are lists of ASCII characters (simplification: no other characters). *)
From Coq Require Import ZArith NArith Ascii List Bool.
From Coq Require Decimal.
Import ListNotations.
Open Scope Z_scope.

Definition text := list ascii.
(** the ASCII characters str.strip removes: \t \n \v \f \r, \x1c-\x1f and the space *)
Definition isSpace (c : ascii) : bool := let n := nat_of_ascii c in (((9 <=? n) && (n <=? 13)) || ((28 <=? n) && (n <=? 32)))%nat%bool.
Definition newline : ascii := "010"%char.
Definition cr : ascii := "013"%char.
(** str.strip() *)
Fixpoint lstrip (t : text) : text := match t with c :: r => if isSpace c then lstrip r else t | [] => [] end.
Definition strip (t : text) : text := rev (lstrip (rev (lstrip t))).
(** str.split(","): never the empty list *)
Fixpoint splitComma (t : text) : list text :=
  match t with
  | [] => [[]]
  | c :: r => if Ascii.eqb c "," then [] :: splitComma r else match splitComma r with l :: ls => (c :: l) :: ls | [] => [[c]] end
  end.
(** str.startswith("#") *)
Definition startsHash (t : text) : bool := match t with c :: _ => Ascii.eqb c "#" | [] => false end.
(** the decimal digits of a non-negative integer, as f"{nblki}" prints them *)
Fixpoint uintText (u : Decimal.uint) : text :=
  match u with
  | Decimal.Nil => [] | Decimal.D0 v => "0"%char :: uintText v | Decimal.D1 v => "1"%char :: uintText v | Decimal.D2 v => "2"%char :: uintText v | Decimal.D3 v => "3"%char :: uintText v
  | Decimal.D4 v => "4"%char :: uintText v | Decimal.D5 v => "5"%char :: uintText v | Decimal.D6 v => "6"%char :: uintText v | Decimal.D7 v => "7"%char :: uintText v | Decimal.D8 v => "8"%char :: uintText v
  | Decimal.D9 v => "9"%char :: uintText v
  end.
Definition printN (n : N) : text := uintText (N.to_uint n).
Definition pushDigit (c : ascii) (u : Decimal.uint) : option Decimal.uint :=
  match nat_of_ascii c with
  | 48 => Some (Decimal.D0 u) | 49 => Some (Decimal.D1 u) | 50 => Some (Decimal.D2 u) | 51 => Some (Decimal.D3 u) | 52 => Some (Decimal.D4 u) | 53 => Some (Decimal.D5 u) | 54 => Some (Decimal.D6 u) | 55 => Some (Decimal.D7 u)
  | 56 => Some (Decimal.D8 u) | 57 => Some (Decimal.D9 u) | _ => None
  end%nat.
(** digits with single underscores between them; [prev]: the previous character is a digit *)
Fixpoint digits (prev : bool) (t : text) : option Decimal.uint :=
  match t with
  | [] => if prev then Some Decimal.Nil else None
  | c :: r => if Ascii.eqb c "_" then (if prev then digits false r else None) else match digits true r with Some u => pushDigit c u | None => None end
  end.
(** int(s) in base 10; ValueError is None *)
Definition pyInt (s : text) : option Z :=
  match strip s with
  | c :: r => if Ascii.eqb c "-" then option_map (fun u => - Z.of_N (N.of_uint u)) (digits false r)
              else if Ascii.eqb c "+" then option_map (fun u => Z.of_N (N.of_uint u)) (digits false r)
              else option_map (fun u => Z.of_N (N.of_uint u)) (digits false (c :: r))
  | [] => None
  end.

(** ** Lines of a file (readBlocksForProcs.py:6-10 and 28-33): with [parallel] str.splitlines, otherwise text-mode readlines *)
Definition lineBreak (parallel : bool) (c : ascii) : bool :=
  let n := nat_of_ascii c in ((n =? 10) || (n =? 13) || (parallel && ((n =? 11) || (n =? 12) || ((28 <=? n) && (n <=? 30)))))%nat%bool.
(** \r\n is one line break *)
Fixpoint crlf (t : text) : text :=
  match t with
  | c :: r => if Ascii.eqb c cr then match r with d :: _ => if Ascii.eqb d newline then crlf r else newline :: crlf r | [] => [newline] end else c :: crlf r
  | [] => []
  end.
Fixpoint linesOf (brk : ascii -> bool) (cur : text) (t : text) : list text :=
  match t with
  | [] => match cur with [] => [] | _ => [rev cur] end
  | c :: r => if brk c then rev cur :: linesOf brk [] r else linesOf brk (c :: cur) r
  end.
Fixpoint mapM {A B} (f : A -> option B) (l : list A) : option (list B) :=
  match l with [] => Some [] | a :: r => match f a, mapM f r with Some b, Some bs => Some (b :: bs) | _, _ => None end end.
(** a line (readBlocksForProcs.py:36-39): [line[-1] == ""] drops the last item *)
Definition parseLine (l : text) : option (list Z) :=
  let items := splitComma (strip l) in
  mapM pyInt (match last items [] with [] => removelast items | _ => items end).
(** readBlocksForProcs.py:1-41 on the contents of the file; None if int() raises *)
Definition readBlocksForProcs (parallel : bool) (t : text) : option (list (list Z)) :=
  mapM parseLine (filter (fun l => negb (startsHash (strip l))) (linesOf (lineBreak parallel) [] (crlf t))).
(** loadBalancer.py:202-206 *)
Definition writeGroups (groups : list (list N)) : text := flat_map (fun g => flat_map (fun n => printN n ++ [","; " "]%char) g ++ [newline]) groups.

(** ** bootstrapCase.py *)
Inductive startup := Raises | Aborts | Accepted (groups : list (list Z)).
(** max(group); ValueError on the empty group *)
Definition pyMax (g : list Z) : option Z := match g with [] => None | x :: r => Some (fold_left Z.max r x) end.
(** lines 44-48 *)
Fixpoint sumMax (groups : list (list Z)) (summ maxx : Z) : option (Z * Z) :=
  match groups with
  | [] => Some (summ, maxx)
  | g :: r => match pyMax g with None => None | Some m => sumMax r (summ + Z.of_nat (length g)) (Z.max maxx m) end
  end.
(** lines 19-79: [file] is None if there is no blocksForProcs.inp; totalBlocks is what conn.yaml declares (checked by rank 0, who aborts the whole job) *)
Definition bootstrap (file : option text) (size totalBlocks : Z) : startup :=
  match (match file with None => Some (map (fun i => [Z.of_nat i]) (seq 0 (Z.to_nat size))) | Some t => readBlocksForProcs true t end) with
  | None => Raises
  | Some groups =>
      if negb (Z.of_nat (length groups) =? size) then Aborts
      else match sumMax groups 0 0 with
           | None => Raises
           | Some (summ, maxx) => if negb (summ - 1 =? maxx) then Aborts
                                  else if negb (totalBlocks =? Z.of_nat (fold_left Nat.add (map (@length Z) groups) 0%nat)) then Aborts else Accepted groups
           end
  end.
(** lines 85-93: the rank of a neighbour; the last group that contains it wins, the old value stays if none does *)
Fixpoint commRankGo (groups : list (list Z)) (nb otherrank : Z) (cur : option Z) : option Z :=
  match groups with [] => cur | g :: r => commRankGo r nb (otherrank + 1) (if existsb (Z.eqb nb) g then Some otherrank else cur) end.
Definition commRank (groups : list (list Z)) (neighbor : option Z) (old : option Z) : option Z :=
  match neighbor with None => None | Some nb => commRankGo groups nb 0 old end.

(** ** loadBalancer.py.  A block is (size, nblki).  [limit]: blksPerProcLimit as an integer; None for inf and for a float that is no integer, which no length equals *)
Definition atLimit (limit : option nat) (len : nat) : bool := match limit with Some n => Nat.eqb len n | None => false end.
(** lines 136-154 *)
Fixpoint minProcsGo (maxSize : Z) (limit : option nat) (l : list (Z * N)) (cur : list N) (size : Z) : list (list N * Z) :=
  match l with
  | [] => [(cur, size)]
  | (s, b) :: r =>
      match cur with
      | [] => minProcsGo maxSize limit r [b] (size + s)
      | _ => if (maxSize <=? size + s) || atLimit limit (length cur) then (cur, size) :: minProcsGo maxSize limit r [b] s
             else minProcsGo maxSize limit r (cur ++ [b]) (size + s)
      end
  end.
(** lines 164-175: blocks are taken from the small end while more than one remains *)
Fixpoint fillSmall (maxSize : Z) (limit : option nat) (rem : list (Z * N)) (cur : list N) (size : Z) : list N * Z * list (Z * N) :=
  match rem with
  | (s, b) :: r =>
      match r with
      | [] => (cur, size, rem)
      | _ :: _ => if size <=? maxSize then
                    (if (maxSize <? size + s) || atLimit limit (length cur) then (cur, size, rem) else fillSmall maxSize limit r (cur ++ [b]) (size + s))
                  else (cur, size, rem)
      end
  | [] => (cur, size, rem)
  end.
(** lines 157-178; [fuel]: every pass of the outer loop removes at least the last index, so as many passes as blocks are enough (minBlks_enough in P_Procs.v) *)
Fixpoint minBlksGo (fuel : nat) (maxSize : Z) (limit : option nat) (rem : list (Z * N)) : list (list N * Z) :=
  match fuel with
  | O => []
  | S f => match rem with
           | [] => []
           | x :: xs => let big := last rem x in
               let '(cur, size, r) := fillSmall maxSize limit (removelast rem) [snd big] (fst big) in (cur, size) :: minBlksGo f maxSize limit r
           end
  end.
(** lines 195-197 *)
Definition addTo (i : nat) (b : Z * N) (st : list (list N * Z)) : list (list N * Z) :=
  map (fun '(j, (g, load)) => if Nat.eqb i j then (g ++ [snd b], load + fst b) else (g, load)) (combine (seq 0 (length st)) st).
(** lines 180-197; [light] is np.argmin of the weighted score: any function of the groups and loads (the score is computed in floating point) *)
Definition numProcsGroups (light : list (list N * Z) -> nat) (numProcs : nat) (large : list (Z * N)) : list (list N * Z) :=
  fold_left (fun st b => addTo (light st) b st) (skipn numProcs large) (map (fun b => ([snd b], fst b)) (firstn numProcs large)).
Inductive mode := MinProcs | MinBlksPerProc | NumProcs (n : nat) (light : list (list N * Z) -> nat) | NoMode.
(** lines 127-197; [sorted] is what getSortedBlockSizes returns, smallest first; maxSize its maximum *)
Definition maxSizeOf (sorted : list (Z * N)) : Z := match sorted with [] => 0 | b :: r => fold_left Z.max (map fst r) (fst b) end.
Definition balance (m : mode) (limit : option nat) (sorted : list (Z * N)) : list (list N * Z) :=
  match m with
  | MinProcs => minProcsGo (maxSizeOf sorted) limit sorted [] 0
  | MinBlksPerProc => minBlksGo (length sorted) (maxSizeOf sorted) limit sorted
  | NumProcs n light => if (0 <? Z.of_nat n)%Z then numProcsGroups light n (rev sorted) else []
  | NoMode => []
  end.
(** allBlocksAssigned (lines 40-60) *)
Definition allBlocksAssigned (blockList : list N) (groups : list (list N)) : bool :=
  forallb (fun b => existsb (existsb (N.eqb b)) groups) blockList && Nat.eqb (fold_left Nat.add (map (@length N) groups) 0%nat) (length blockList).
(** the file the utility writes; None if the assert of line 199 fires *)
Definition loadBalancer (m : mode) (limit : option nat) (blockList : list N) (sorted : list (Z * N)) : option text :=
  let groups := map fst (balance m limit sorted) in if allBlocksAssigned blockList groups then Some (writeGroups groups) else None.
(** getSortedBlockSizes (lines 13-21): blocks with their numbers of cells, in an order argsort may return *)
Definition sizeOf (n : Z * Z * Z) : Z := let '(ni, nj, nk) := n in (ni - 1) * (nj - 1) * (nk - 1).
