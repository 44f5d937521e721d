(** Model of utilities/analyzeGrid.py:17-40 and of the automatic cutting of utilities/cutGrid.py:415-463.
    Definitions only; Python exceptions are [None].

    Simplifications:
    - cell counts are integers; numpy stores them as int32 (analyzeGrid.py:18), so blocks of 2^31 cells
      or more are outside the model;
    - the float quotients of cutGrid.py:430-432 and numpy's mean and standard deviation are exact reals;
    - grid blocks are those of M_Cut. *)
From Coq Require Import ZArith String List Bool Reals.
From Verif Require Import M_Topology M_Cut.
Import ListNotations.
Open Scope Z_scope.

(** analyzeGrid.py:20: the number of cells of a block. *)
Definition blockCells (b : gblock) : Z :=
  let '(ni, nj, nk) := gshape b in (ni - 1) * (nj - 1) * (nk - 1).

(** [size[i] = v]: numpy indexing, negative indices count from the end, IndexError otherwise. *)
Definition setItem (l : list Z) (i v : Z) : option (list Z) :=
  let n := Z.of_nat (length l) in
  if (0 <=? i) && (i <? n) then Some (set_nth l (Z.to_nat i) v)
  else if (- n <=? i) && (i <? 0) then Some (set_nth l (Z.to_nat (i + n)) v)
  else None.

(** analyzeGrid.py:18-20. *)
Fixpoint fillSizes (bs : list gblock) (size : list Z) : option (list Z) :=
  match bs with
  | [] => Some size
  | b :: r => match setItem size (gn b) (blockCells b) with
              | Some size' => fillSizes r size'
              | None => None
              end
  end.

(** np.argmax / np.argmin: the first position of the extreme value. *)
Fixpoint argBest (better : Z -> Z -> bool) (l : list Z) (i best : nat) (v : Z) : nat * Z :=
  match l with
  | [] => (best, v)
  | h :: t => if better h v then argBest better t (S i) i h else argBest better t (S i) best v
  end.
Definition argmax (l : list Z) : nat * Z := argBest (fun h v => v <? h) (tl l) 1 0 (hd 0 l).
Definition argmin (l : list Z) : nat * Z := argBest (fun h v => h <? v) (tl l) 1 0 (hd 0 l).

Definition zsum (l : list Z) : Z := fold_left Z.add l 0.
Definition rsum (l : list R) : R := fold_left Rplus l 0%R.

(** The results dictionary, analyzeGrid.py:28-38. *)
Record stats := mkStats {
  totalCells : Z;
  maxNblki : Z; maxCells : Z; maxNx : Z * Z * Z;
  minNblki : Z; minCells : Z; minNx : Z * Z * Z;
  mean : R; stdv : R }.

(** np.mean and np.std (population standard deviation) of an integer array. *)
Definition npMean (l : list R) : R := (rsum l / INR (length l))%R.
Definition npStd (l : list R) : R :=
  sqrt (npMean (map (fun x => (x - npMean l) * (x - npMean l))%R l)).

(** analyzeGrid.py:17-40.  np.min of an empty array raises. *)
Definition analyze (mb : list gblock) : option stats :=
  match fillSizes mb (repeat 0 (length mb)) with
  | None => None
  | Some size =>
    if (length size =? 0)%nat then None
    else if negb (0 <? snd (argmin size)) then None            (* the assert, 22 *)
    else
      match getBlk mb (Z.of_nat (fst (argmax size))), getBlk mb (Z.of_nat (fst (argmin size))) with
      | Some big, Some small =>
        Some (mkStats (zsum size)
                (Z.of_nat (fst (argmax size))) (snd (argmax size)) (gshape big)
                (Z.of_nat (fst (argmin size))) (snd (argmin size)) (gshape small)
                (npMean (map IZR size)) (npStd (map IZR size)))
      | _, _ => None
      end
  end.

(** cutGrid.py:424-437 for one axis with [na] points: [P] is the product of the three point counts,
    so [np.prod(nis / trialNsplits) > maxBlockSize] is [limit * splits < P].  The outer [None] means
    the fuel was not enough, [Some None] the ValueError. *)
Fixpoint trialLoop (fuel : nat) (na P limit splits : Z) (over : bool) : option (option Z) :=
  if negb over then Some (Some (splits - 1))
  else match fuel with
  | O => None
  | S f =>
    let splits' := splits + 1 in
    if na <=? splits' then Some None
    else trialLoop f na P limit splits' (limit * splits' <? P)
  end.

(** cutGrid.py:421-437: the three axes in turn. *)
Fixpoint requiredCuts (fuel : nat) (ns : list Z) (P limit cells : Z) : option (option (list Z)) :=
  match ns with
  | [] => Some (Some [])
  | na :: r =>
    match trialLoop fuel na P limit 1 (limit <? cells) with
    | Some (Some c) =>
      match requiredCuts fuel r P limit cells with
      | Some (Some l) => Some (Some (c :: l))
      | o => o
      end
    | Some None => Some None
    | None => None
    end
  end.

(** [newBlocks.index(min(newBlocks))], cutGrid.py:449. *)
Definition indexOfMin (l : list Z) : nat := fst (argmin l).

(** cutGrid.py:416-452: one round - the cut operation (block, axis, number of cuts) decided for the
    largest block; the path lengths are those of cutPath.  The number of cuts is read with the loop
    variable [a] left at 2 (450). *)
Definition decide (fuel : nat) (mb : list gblock) (st : stats) (limit : Z)
  : option (option (Z * string * Z)) :=
  let '(ni, nj, nk) := maxNx st in
  match getBlk mb (maxNblki st) with
  | None => Some None
  | Some b =>
    match requiredCuts fuel [ni; nj; nk] (ni * nj * nk) limit (maxCells st) with
    | Some (Some req) =>
      match cutPath fuel mb (gn b) "i", cutPath fuel mb (gn b) "j", cutPath fuel mb (gn b) "k" with
      | Some (Some pi), Some (Some pj), Some (Some pk) =>
        let newBlocks := map (fun pr : Z * Z => fst pr * (snd pr - 1))
          (combine [Z.of_nat (length pi); Z.of_nat (length pj); Z.of_nat (length pk)] req) in
        match nth_error ["i"; "j"; "k"]%string (indexOfMin newBlocks), nth_error req 2 with
        | Some ax, Some c => Some (Some (gn b, ax, c))
        | _, _ => Some None
        end
      | None, _, _ | _, None, _ | _, _, None => None
      | _, _, _ => Some None
      end
    | Some None => Some None
    | None => None
    end
  end.
