(** Model of the halo exchange: multiBlock/solverFace.py (slices, buffers, orientation functions),
    mpiComm/communicate.py, compute/utils/sendRecvBuffer.cpp, compute/rangeMap.cpp:getFaceSlice.
    Definitions only.

    Simplifications, all of them about data layout and not about control flow:
    - an array is a function from index triples to an abstract value type [V]; for the
      four-dimensional views (q, Q, dqdx.., phi) the last axis (components) is part of [V], because
      every operation here acts on the leading axes only;
    - host/device mirrors (updateHostView / updateDeviceView) are identities;
    - the MPI transport is represented here only by the set of messages it carries; its
      scheduling is modelled in M_Mpi.v. *)
From Coq Require Import ZArith String Ascii List Bool.
From Verif Require Import M_Topology.
Import ListNotations.
Open Scope Z_scope.

Record dims := mkDims { ni : Z; nj : Z; nk : Z }.

(** Python's range(a,b). *)
Definition zrange (a b : Z) : list Z := map (fun i => a + Z.of_nat i) (seq 0 (Z.to_nat (b - a))).

(** Which exchange: x,y,z / q,Q / dqdx,dqdy,dqdz,phi (communicate.py:36-41). *)
Inductive kind := KNode | KCcAll | KCcFirst.

(** solverFace.py:144-221, node slices to send. *)
Definition nodeSendSlices (nface : Z) (d : dims) (ng : Z) : option (list Z) :=
  let small := zrange (ng + 1) (2 * ng + 1) in
  let large := zrange (- (2 * ng + 1)) (- (ng + 1)) in
  match nface with
  | 1 => Some small
  | 2 => Some (map (fun i => ni d + 2 * ng + i) large)
  | 3 => Some small
  | 4 => Some (map (fun i => nj d + 2 * ng + i) large)
  | 5 => Some small
  | 6 => Some (map (fun i => nk d + 2 * ng + i) large)
  | _ => None
  end.

(** solverFace.py:144-221, node slices to receive into. *)
Definition nodeRecvSlices (nface : Z) (d : dims) (ng : Z) : option (list Z) :=
  let small := zrange 0 ng in
  let large := zrange (- ng) 0 in
  match nface with
  | 1 => Some small
  | 2 => Some (map (fun i => ni d + 2 * ng + i) large)
  | 3 => Some small
  | 4 => Some (map (fun i => nj d + 2 * ng + i) large)
  | 5 => Some small
  | 6 => Some (map (fun i => nk d + 2 * ng + i) large)
  | _ => None
  end.

(** solverFace.py:150-221, cell slices to send (all layers). *)
Definition ccSendAllSlices (nface : Z) (d : dims) (ng : Z) : option (list Z) :=
  let small := zrange ng (2 * ng) in
  let large := zrange (-2 * ng) (- ng) in
  match nface with
  | 1 => Some small
  | 2 => Some (map (fun i => ni d + 2 * ng + i - 1) large)
  | 3 => Some small
  | 4 => Some (map (fun i => nj d + 2 * ng + i - 1) large)
  | 5 => Some small
  | 6 => Some (map (fun i => nk d + 2 * ng + i - 1) large)
  | _ => None
  end.

(** solverFace.py:150-221, cell slices to receive into (all layers). *)
Definition ccRecvAllSlices (nface : Z) (d : dims) (ng : Z) : option (list Z) :=
  let small := zrange 0 ng in
  let large := zrange (- ng) 0 in
  match nface with
  | 1 => Some small
  | 2 => Some (map (fun i => ni d + 2 * ng + i - 1) large)
  | 3 => Some small
  | 4 => Some (map (fun i => nj d + 2 * ng + i - 1) large)
  | 5 => Some small
  | 6 => Some (map (fun i => nk d + 2 * ng + i - 1) large)
  | _ => None
  end.

(** solverFace.py:226-231: [l[0]] and [l[-1]] of the slice lists (IndexError on an empty list). *)
Definition first1 (l : list Z) : option (list Z) := match l with [] => None | x :: _ => Some [x] end.
Definition last1 (l : list Z) : option (list Z) := first1 (rev l).
Definition ccSendFirstHalo (nface : Z) (sendAll : list Z) : option (list Z) :=
  if existsb (Z.eqb nface) [1; 3; 5] then first1 sendAll else last1 sendAll.
Definition ccRecvFirstHalo (nface : Z) (recvAll : list Z) : option (list Z) :=
  if existsb (Z.eqb nface) [1; 3; 5] then last1 recvAll else first1 recvAll.

(** solverFace.py:156-215: shape of one node / cell slice. *)
Definition nodeShape (nface : Z) (d : dims) (ng : Z) : option (Z * Z) :=
  match nface with
  | 1 => Some (nj d + 2 * ng, nk d + 2 * ng)
  | 2 => Some (nj d + 2 * ng, nk d + 2 * ng)
  | 3 => Some (ni d + 2 * ng, nk d + 2 * ng)
  | 4 => Some (ni d + 2 * ng, nk d + 2 * ng)
  | 5 => Some (ni d + 2 * ng, nj d + 2 * ng)
  | 6 => Some (ni d + 2 * ng, nj d + 2 * ng)
  | _ => None
  end.
Definition ccShape (nface : Z) (d : dims) (ng : Z) : option (Z * Z) :=
  match nface with
  | 1 => Some (nj d + 2 * ng - 1, nk d + 2 * ng - 1)
  | 2 => Some (nj d + 2 * ng - 1, nk d + 2 * ng - 1)
  | 3 => Some (ni d + 2 * ng - 1, nk d + 2 * ng - 1)
  | 4 => Some (ni d + 2 * ng - 1, nk d + 2 * ng - 1)
  | 5 => Some (ni d + 2 * ng - 1, nj d + 2 * ng - 1)
  | 6 => Some (ni d + 2 * ng - 1, nj d + 2 * ng - 1)
  | _ => None
  end.

(** The reorientation chosen by _setOrientFunc, solverFace.py:314-377:
    (transpose, flip axis 0, flip axis 1); transposition is applied first (399-428). *)
Record orienter := mkOr { oT : bool; oF0 : bool; oF1 : bool }.

(* largeIndexMapping, solverFace.py:325: true stands for "k", false for "j" *)
Definition largeIndexK (normal : nat) : bool :=
  match normal with 0%nat => true | 1%nat => true | _ => false end.

(* needToTranspose, solverFace.py:326-329 *)
Definition needToTranspose (big big2 : bool) : list Z :=
  match big, big2 with
  | true, true => [1; 2; 4; 5]
  | true, false => [1; 4]
  | false, true => [1; 2; 4; 5]
  | false, false => [1; 4]
  end.

(* solverFace.py:341-345: the digits of the neighbour orientation except the normal one *)
Definition faceOrientations (neighborOrientation : string) (normal : nat) : option (list Z) :=
  fold_right (fun j acc =>
      match acc with
      | None => None
      | Some l => if Nat.eqb j normal then Some l
                  else match orient_digit neighborOrientation j with
                       | Some d => Some (d :: l) | None => None end
      end) (Some []) (seq 0 (String.length neighborOrientation)).

Definition in456 (d : Z) : bool := existsb (Z.eqb d) [4; 5; 6].

(* solverFace.py:331-377 *)
Definition setOrientFunc (nface : Z) (orientation : string) : option orienter :=
  match neighborNface nface orientation, neighborOrientation orientation with
  | Some nNface, Some nOrient =>
    match faceToOrientIndex nNface, faceToOrientIndex nface with
    | Some normalIndex, Some normalIndex2 =>
      match faceOrientations nOrient normalIndex with
      | Some [fo0; fo1] =>
        let transpose := existsb (Z.eqb fo1)
             (needToTranspose (largeIndexK normalIndex) (largeIndexK normalIndex2)) in
        Some (mkOr transpose (in456 fo0) (in456 fo1))
      | _ => None
      end
    | _, _ => None
    end
  | _, _ => None
  end.

(* Effect on the shape of a slice and on its contents; np.moveaxis and np.flip,
   solverFace.py:398-428. *)
Definition orientShape (t : orienter) (sh : Z * Z) : Z * Z :=
  if oT t then (snd sh, fst sh) else sh.
Definition orientGet {V} (t : orienter) (sh : Z * Z) (g : Z -> Z -> V) : Z -> Z -> V :=
  let sh' := orientShape t sh in
  let g1 := if oT t then (fun a b => g b a) else g in
  let g2 := if oF0 t then (fun a b => g1 (fst sh' - 1 - a) b) else g1 in
  if oF1 t then (fun a b => g2 a (snd sh' - 1 - b)) else g2.

(** Which axis index is reversed, solverFace.py:236-244 ("in ['4','5','6']" on a character). *)
Definition counterAligned (nface : Z) (orientation : string) : option bool :=
  match faceToOrientIndex nface with
  | Some ix => match String.get ix orientation with
               | Some c => Some (existsb (Ascii.eqb c) ["4"%char; "5"%char; "6"%char])
               | None => None end
  | None => None
  end.

(** What setBlockCommunication leaves on a face (solverBlock.py:239-244, solverFace.py:120-377)
    together with the rank assigned in bootstrapCase.py:86-93. *)
Record commFace := mkCommFace {
  cf_nface : Z; cf_neighbor : Z; cf_rank : Z; cf_orient : orienter;
  cf_nodeSend : list Z; cf_nodeRecv : list Z; cf_ccSend : list Z; cf_ccRecv : list Z;
  cf_ccSend1 : list Z; cf_ccRecv1 : list Z;
  cf_nodeShape : Z * Z; cf_ccShape : Z * Z;
  cf_tagS : Z; cf_tagR : Z }.

Definition revif (b : bool) (l : list Z) : list Z := if b then rev l else l.

(* bootstrapCase.py:91-93: every rank whose list contains the neighbour overwrites commRank; the
   initial value None is represented by -1 (no such rank exists). *)
Fixpoint commRankFrom (r : Z) (procs : list (list Z)) (n acc : Z) : Z :=
  match procs with
  | [] => acc
  | p :: ps => commRankFrom (r + 1) ps n (if existsb (Z.eqb n) p then r else acc)
  end.
Definition commRank (procs : list (list Z)) (n : Z) : Z := commRankFrom 0 procs n (-1).

(* solverFace.py:120-377 for one face that has a neighbour *)
Definition setComm (procs : list (list Z)) (ng nblk : Z) (d : dims) (f : face) (nb : Z) : option commFace :=
  match orientation f with
  | None => None
  | Some o =>
    match setOrientFunc (nface f) o, neighborNface (nface f) o, counterAligned (nface f) o with
    | Some tri, Some nn, Some rv =>
      match nodeSendSlices (nface f) d ng, nodeRecvSlices (nface f) d ng,
            ccSendAllSlices (nface f) d ng, ccRecvAllSlices (nface f) d ng,
            nodeShape (nface f) d ng, ccShape (nface f) d ng with
      | Some ns, Some nr, Some cs, Some cr, Some nsh, Some csh =>
        match ccSendFirstHalo (nface f) cs, ccRecvFirstHalo (nface f) cr with
        | Some cs1, Some cr1 =>
          Some (mkCommFace (nface f) nb (commRank procs nb) tri (revif rv ns) nr (revif rv cs) cr cs1 cr1
                           nsh csh (nb * 6 + nn) (nblk * 6 + nface f))
        | _, _ => None
        end
      | _, _, _, _, _, _ => None
      end
    | _, _, _ => None
    end
  end.

(** A solver block: topology plus grid size; and the same block after setBlockCommunication
    (communicating faces only, in face order). *)
Record sblock := mkSBlock { sb_topo : block; sb_dims : dims }.
Record cblock := mkCBlock { cb_num : Z; cb_faces : list commFace }.

(* solverBlock.py:239-244 *)
Definition setBlockCommunication (procs : list (list Z)) (ng : Z) (b : sblock) : option cblock :=
  match fold_right (fun f acc =>
          match acc with
          | None => None
          | Some l => match neighbor f with
                      | None => Some l
                      | Some nb => match setComm procs ng (nblki (sb_topo b)) (sb_dims b) f nb with
                                   | Some c => Some (c :: l) | None => None end
                      end
          end) (Some []) (faces (sb_topo b)) with
  | Some l => Some (mkCBlock (nblki (sb_topo b)) l)
  | None => None
  end.

Fixpoint sequence {A} (l : list (option A)) : option (list A) :=
  match l with
  | [] => Some []
  | Some a :: t => match sequence t with Some r => Some (a :: r) | None => None end
  | None :: _ => None
  end.

(* solver.py:95-97 on every rank: [w] is the list, by rank, of the blocks owned *)
Definition blocksForProcs (w : list (list sblock)) : list (list Z) :=
  map (map (fun b => nblki (sb_topo b))) w.
Definition setupAll (ng : Z) (w : list (list sblock)) : option (list (list cblock)) :=
  sequence (map (fun mb => sequence (map (setBlockCommunication (blocksForProcs w) ng) mb)) w).

(** Slice lists used by communicate.py:36-41 and 67-72, and slice shapes. *)
Definition sendSlices (k : kind) (c : commFace) : list Z :=
  match k with KNode => cf_nodeSend c | KCcAll => cf_ccSend c | KCcFirst => cf_ccSend1 c end.
Definition recvSlices (k : kind) (c : commFace) : list Z :=
  match k with KNode => cf_nodeRecv c | KCcAll => cf_ccRecv c | KCcFirst => cf_ccRecv1 c end.
Definition sliceShape (k : kind) (c : commFace) : Z * Z :=
  match k with KNode => cf_nodeShape c | _ => cf_ccShape c end.
(** Number of layers of the allocated buffers, solverFace.py:251,276-279. *)
Definition nLayers (k : kind) (ng : Z) : Z := match k with KCcFirst => 1 | _ => ng end.
Definition sendShape (k : kind) (c : commFace) : Z * Z := orientShape (cf_orient c) (sliceShape k c).

Definition array3 (V : Type) := Z -> Z -> Z -> V.

(* rangeMap.cpp:65-120.  Faces other than 1..6 throw; here they cannot occur because setComm has
   already rejected them, so the last case is merged with 5,6. *)
Definition getFaceSlice {V} (view : array3 V) (nface s : Z) : Z -> Z -> V :=
  match nface with
  | 1 | 2 => fun a b => view s a b
  | 3 | 4 => fun a b => view a s b
  | _ => fun a b => view a b s
  end.
Definition setFaceSlice {V} (view : array3 V) (nface s : Z) (g : Z -> Z -> V) : array3 V :=
  match nface with
  | 1 | 2 => fun i j k => if i =? s then g j k else view i j k
  | 3 | 4 => fun i j k => if j =? s then g i k else view i j k
  | _ => fun i j k => if k =? s then g i j else view i j k
  end.

(** extractSendBuffer (sendRecvBuffer.cpp:6-38) followed by the orientation loop
    (communicate.py:47-54): layer [g] of the send buffer. *)
Definition sendLayer {V} (k : kind) (c : commFace) (view : array3 V) (g : Z) : Z -> Z -> V :=
  orientGet (cf_orient c) (sliceShape k c)
            (getFaceSlice view (cf_nface c) (nth (Z.to_nat g) (sendSlices k c) 0)).

(** The message: the send buffer in C order, [ssize] doubles (communicate.py:55-56). *)
Record message (V : Type) := mkMsg { m_src : Z; m_dst : Z; m_tag : Z; m_size : Z; m_data : Z -> V }.
Arguments mkMsg {V}. Arguments m_src {V}. Arguments m_dst {V}. Arguments m_tag {V}.
Arguments m_size {V}. Arguments m_data {V}.

Definition sendMessage {V} (ng : Z) (k : kind) (myrank : Z) (c : commFace) (view : array3 V) : message V :=
  let sh := sendShape k c in
  mkMsg myrank (cf_rank c) (cf_tagS c) (nLayers k ng * (fst sh * snd sh))
        (fun x => sendLayer k c view (x / (fst sh * snd sh)) (x / snd sh mod fst sh) (x mod snd sh)).

(** Contents of recvBuffer after the message has arrived, read with the receiver's shape. *)
Definition recvBuffer {V} (k : kind) (c : commFace) (m : message V) (g a b : Z) : V :=
  let sh := sliceShape k c in m_data m (g * (fst sh * snd sh) + a * snd sh + b).

(* sendRecvBuffer.cpp:40-72 *)
Definition placeRecvBuffer {V} (k : kind) (c : commFace) (buf : Z -> Z -> Z -> V) (view : array3 V) : array3 V :=
  fold_left (fun v g => setFaceSlice v (cf_nface c) (nth g (recvSlices k c) 0) (buf (Z.of_nat g)))
            (seq 0 (length (recvSlices k c))) view.

(** The whole exchange of one variable as a function of the global state (block number -> array):
    every rank's sends are computed from the arrays before any placement on that rank
    (communicate.py:29-56 precede 58-81; arrays of other ranks are not visible), then each face
    places the message with matching source, destination and tag.  [None]: a receive that no
    message matches (the program would hang). *)
Definition state (V : Type) := Z -> array3 V.

Definition numbered {A} (l : list A) : list (Z * A) :=
  combine (map Z.of_nat (seq 0 (length l))) l.

Definition rankSends {V} (ng : Z) (k : kind) (st : state V) (rm : Z * list cblock) : list (message V) :=
  flat_map (fun b => map (fun c => sendMessage ng k (fst rm) c (st (cb_num b))) (cb_faces b)) (snd rm).
Definition allSends {V} (ng : Z) (k : kind) (st : state V) (w : list (list cblock)) : list (message V) :=
  flat_map (rankSends ng k st) (numbered w).

Definition matches {V} (myrank : Z) (c : commFace) (m : message V) : bool :=
  (m_src m =? cf_rank c) && (m_dst m =? myrank) && (m_tag m =? cf_tagR c).

Definition placeFace {V} (k : kind) (msgs : list (message V)) (myrank : Z) (num : Z)
           (st : option (state V)) (c : commFace) : option (state V) :=
  match st with
  | None => None
  | Some s =>
    match find (matches myrank c) msgs with
    | None => None
    | Some m => Some (fun n => if n =? num then placeRecvBuffer k c (recvBuffer k c m) (s num) else s n)
    end
  end.
Definition placeBlock {V} (k : kind) (msgs : list (message V)) (myrank : Z)
           (st : option (state V)) (b : cblock) : option (state V) :=
  fold_left (placeFace k msgs myrank (cb_num b)) (cb_faces b) st.
Definition placeRank {V} (k : kind) (msgs : list (message V))
           (st : option (state V)) (rm : Z * list cblock) : option (state V) :=
  fold_left (placeBlock k msgs (fst rm)) (snd rm) st.

Definition communicate {V} (ng : Z) (k : kind) (w : list (list cblock)) (st : state V) : option (state V) :=
  fold_left (placeRank k (allSends ng k st w)) (numbered w) (Some st).

(* communicate.py:12: variables one after the other *)
Fixpoint communicateVars {V} (ng : Z) (ks : list kind) (w : list (list cblock)) (sts : list (state V))
  : option (list (state V)) :=
  match ks, sts with
  | k :: ks', s :: sts' =>
    match communicate ng k w s, communicateVars ng ks' w sts' with
    | Some s', Some r => Some (s' :: r)
    | _, _ => None
    end
  | _, _ => Some []
  end.
