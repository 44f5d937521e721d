(** Model of utilities/verifyGrid.py: extractFace and verify.  Definitions only.  Exceptions (a
    failed assert, ValueError, TypeError, AttributeError, IndexError) are [None]; otherwise
    [Some r] with [r] the returned bool.  Simplifications: the x, y and z arrays, which are always
    treated alike, are one array of triples; numpy would stretch a face dimension of 1 when
    subtracting arrays of different shapes, here different shapes are always an error; printing is
    not modelled; exact reals. *)
From Coq Require Import ZArith String Ascii List Bool Reals.
From Verif Require Import M_Topology M_Cut.
Import ListNotations.
Open Scope Z_scope.

(** faceToOrientIndexMapping, verifyGrid.py:24-31. *)
Definition normalOf (nface : Z) : option nat :=
  match nface with
  | 1 => Some 0%nat | 2 => Some 0%nat | 3 => Some 1%nat | 4 => Some 1%nat
  | 5 => Some 2%nat | 6 => Some 2%nat | _ => None
  end.

(** largeIndexMapping, verifyGrid.py:33. *)
Definition largeIndex (n : nat) : string :=
  match n with 0%nat => "k" | 1%nat => "k" | _ => "j" end%string.

(** needToTranspose, verifyGrid.py:34-37. *)
Definition transposeDigits (big big2 : string) : list Z :=
  if String.eqb big "k" then if String.eqb big2 "k" then [1; 2; 4; 5] else [1; 4]
  else if String.eqb big2 "k" then [1; 2; 4; 5] else [1; 4].

(** A face of coordinates: its shape and its points. *)
Record farr := mkFA { ash : Z * Z; aget : Z -> Z -> R * R * R }.

(** extractFace, verifyGrid.py:40-56; index -1 is the last one. *)
Definition extractFace (b : gblock) (nface : Z) : option farr :=
  let '(ni, nj, nk) := gshape b in
  let at3 := fun i j k => (gx b i j k, gy b i j k, gz b i j k) in
  match nface with
  | 1 => Some (mkFA (nj, nk) (fun u v => at3 0 u v))
  | 2 => Some (mkFA (nj, nk) (fun u v => at3 (ni - 1) u v))
  | 3 => Some (mkFA (ni, nk) (fun u v => at3 u 0 v))
  | 4 => Some (mkFA (ni, nk) (fun u v => at3 u (nj - 1) v))
  | 5 => Some (mkFA (ni, nj) (fun u v => at3 u v 0))
  | 6 => Some (mkFA (ni, nj) (fun u v => at3 u v (nk - 1)))
  | _ => None
  end.

Definition transposeF (a : farr) : farr := mkFA (snd (ash a), fst (ash a)) (fun u v => aget a v u).
Definition flip0 (a : farr) : farr := mkFA (ash a) (fun u v => aget a (fst (ash a) - 1 - u) v).
Definition flip1 (a : farr) : farr := mkFA (ash a) (fun u v => aget a u (snd (ash a) - 1 - v)).
Definition digit456 (d : Z) : bool := existsb (Z.eqb d) [4; 5; 6].

(** verifyGrid.py:124-128: the digits of the neighbour's orientation along its face. *)
Definition inPlaneDigits (nOrientation : string) (normal : nat) : option (list Z) :=
  fold_right (fun j acc =>
      match acc with
      | None => None
      | Some l => if Nat.eqb j normal then Some l
                  else match orient_digit nOrientation j with Some d => Some (d :: l) | None => None end
      end) (Some []) (seq 0 (String.length nOrientation)).

(** verifyGrid.py:124-152: bring our face into the neighbour's storage order. *)
Definition reorient (nface nface2 : Z) (nOrientation : string) (a : farr) : option farr :=
  match normalOf nface2, normalOf nface with
  | Some n1, Some n2 =>
    match inPlaneDigits nOrientation n1 with
    | Some [fo0; fo1] =>
      let a1 := if existsb (Z.eqb fo1) (transposeDigits (largeIndex n1) (largeIndex n2)) then transposeF a else a in
      let a2 := if digit456 fo0 then flip0 a1 else a1 in
      Some (if digit456 fo1 then flip1 a2 else a2)
    | _ => None
    end
  | _, _ => None
  end.

(** verifyGrid.py:154-181.  The faces of a grid block are plain topologyFace objects
    (topologyBlock.py:14-17), which have no [array] attribute, so the two rotational branches
    raise AttributeError. *)
Definition periodicMove (g : gface) (a : farr) : option farr :=
  let t := bcType (topo g) in
  if String.eqb t "periodicTransLow" then
    match paxis g, span g with
    | Some (ax, ay, az), Some sp =>
      Some (mkFA (ash a) (fun u v => let '(x, y, z) := aget a u v in (x + ax * sp, y + ay * sp, z + az * sp)%R))
    | _, _ => None
    end
  else if String.eqb t "periodicTransHigh" then
    match paxis g, span g with
    | Some (ax, ay, az), Some sp =>
      Some (mkFA (ash a) (fun u v => let '(x, y, z) := aget a u v in (x - ax * sp, y - ay * sp, z - az * sp)%R))
    | _, _ => None
    end
  else if String.eqb t "periodicRotLow" then None
  else if String.eqb t "periodicRotHigh" then None
  else Some a.

(** np.max; an empty array raises. *)
Definition npMax (l : list R) : option R :=
  match l with [] => None | x :: r => Some (fold_left Rmax r x) end.
Definition indices (sh : Z * Z) : list (Z * Z) :=
  flat_map (fun u => map (fun v => (Z.of_nat u, Z.of_nat v)) (seq 0 (Z.to_nat (snd sh)))) (seq 0 (Z.to_nat (fst sh))).
Definition above (x : R) : bool := if Rlt_dec (1 / 10 ^ 10) x then true else false.

(** verifyGrid.py:183-209: true = a warning was printed. *)
Definition compareFaces (a b : farr) : option bool :=
  if (fst (ash a) =? fst (ash b)) && (snd (ash a) =? snd (ash b)) then
    let off := fun (c : R * R * R -> R) =>
      npMax (map (fun p => Rabs (c (aget a (fst p) (snd p)) - c (aget b (fst p) (snd p)))) (indices (ash a))) in
    match off (fun p => fst (fst p)), off (fun p => snd (fst p)), off (fun p => snd p) with
    | Some ox, Some oy, Some oz => Some (above ox || above oy || above oz)
    | _, _, _ => None
    end
  else None.

(** verifyGrid.py:69-108: the asserts on a face without neighbour. *)
Definition unconnectedOK (f : face) : bool :=
  existsb (String.eqb (bcType f))
    ["constantVelocitySubsonicInlet"; "supersonicInlet"; "constantMassFluxSubsonicInlet"; "cubicSplineSubsonicInlet";
     "constantPressureSubsonicExit"; "supersonicExit";
     "adiabaticNoSlipWall"; "adiabaticSlipWall"; "adiabaticMovingWall";
     "isoTNoSlipWall"; "isoTSlipWall"; "isoTMovingWall"]%string
  && negb (existsb (String.eqb (bcType f))
    ["b0"; "periodicTransLow"; "periodicTransHigh"; "periodicRotLow"; "periodicRotHigh"]%string)
  && (match orientation f with None => true | Some _ => false end)
  && (existsb (String.eqb (bcType f)) ["supersonicExit"; "adiabaticNoSlipWall"; "adiabaticSlipWall"]%string
      || match bcFam f with None => false | Some _ => true end).

(** verifyGrid.py:61-209, one face; true = a warning was printed. *)
Definition verifyFace (mb : list gblock) (b : gblock) (g : gface) : option bool :=
  let t := topo g in
  match neighbor t with
  | None => if unconnectedOK t then Some false else None
  | Some nb =>
    match extractFace b (nface t), getBlk mb nb, orientation t with
    | Some fa, Some b2, Some o =>
      match neighborNface (nface t) o, neighborOrientation o with
      | Some nf2, Some no =>
        match faceOf b2 nf2 with
        | None => None
        | Some g2 =>
          match neighbor (topo g2) with
          | None => None
          | Some back =>
            if negb (back =? gn b) then None
            else match extractFace b2 nf2, reorient (nface t) nf2 no fa with
                 | Some fb, Some fa' =>
                   match periodicMove g fa' with
                   | None => None
                   | Some fa'' => compareFaces fa'' fb
                   end
                 | _, _ => None
                 end
          end
        end
      | _, _ => None
      end
    | _, _, _ => None
    end
  end.

(** verifyGrid.py:211-233: true = the block is reported as left handed. *)
Definition leftHanded (b : gblock) : option bool :=
  let '(ni, nj, nk) := gshape b in
  if (2 <=? ni) && (2 <=? nj) && (2 <=? nk) then
    let p := fun i j k => (gx b i j k, gy b i j k, gz b i j k) in
    let sub := fun u v : R * R * R => (fst (fst u) - fst (fst v), snd (fst u) - snd (fst v), snd u - snd v)%R in
    let '(ix, iy, iz) := sub (p 1 0 0) (p 0 0 0) in
    let '(jx, jy, jz) := sub (p 0 1 0) (p 0 0 0) in
    let '(kx, ky, kz) := sub (p 0 0 1) (p 0 0 0) in
    let cx := (iy * jz - iz * jy)%R in
    let cy := (iz * jx - ix * jz)%R in
    let cz := (ix * jy - iy * jx)%R in
    Some (if Rlt_dec (kx * cx + ky * cy + kz * cz) 0 then true else false)
  else None.

(** The loops, verifyGrid.py:58-238. *)
Fixpoint warns {A} (f : A -> option bool) (l : list A) : option bool :=
  match l with
  | [] => Some false
  | x :: r => match f x with
              | None => None
              | Some w => match warns f r with None => None | Some w' => Some (w || w') end
              end
  end.
Definition verifyBlock (mb : list gblock) (b : gblock) : option bool :=
  match warns (verifyFace mb b) (gfaces b) with
  | None => None
  | Some w => match leftHanded b with None => None | Some h => Some (w || h) end
  end.
Definition verify (mb : list gblock) : option bool :=
  match warns (verifyBlock mb) mb with None => None | Some w => Some (negb w) end.
