(** Specification vocabulary for fluxes through faces shared by two blocks. *)
From Coq Require Import Reals ZArith List Bool.
From Verif Require Import M_Topology S_Topology M_Halo S_Halo M_Grid M_Metrics S_Metrics M_Flux S_Flux M_FluxKernels S_FluxKernels.
Import ListNotations.
Open Scope R_scope.

(** Cross product of signed axes: i x j = k and cyclic, senses multiply. *)
Definition scross (s t : saxis) : saxis :=
  match fst s, fst t with
  | I, J => (K, Bool.eqb (snd s) (snd t)) | J, K => (I, Bool.eqb (snd s) (snd t)) | K, I => (J, Bool.eqb (snd s) (snd t))
  | J, I => (K, xorb (snd s) (snd t)) | K, J => (I, xorb (snd s) (snd t)) | I, K => (J, xorb (snd s) (snd t))
  | a, _ => (a, true)
  end.
(** both blocks are numbered with the same handedness *)
Definition rightHanded (o : orient) : Prop := o K = scross (o I) (o J).

(** The two blocks' grids share the nodes of the common face, possibly up to a translation (periodic faces). *)
Definition sharedNodes (ng : Z) (w : list (list sblock)) (X : Z -> nodes) : Prop :=
  forall A f B o s, joined w A f B o -> outward (nface f) s ->
   exists t, forall q q', interior KNode ng (sb_dims A) q -> pos KNode q (fst s) = facePlane ng (sb_dims A) s ->
    glued ng (sb_dims A) (sb_dims B) s o (pos KNode q) (pos KNode q') ->
    at3 (X (num B)) q' = vadd (at3 (X (num A)) q) t.
(** Within h cells of a shared face (and not beyond the face's edges) both blocks hold the same cells. *)
Definition sharedCells (ng h : Z) (w : list (list sblock)) (c : Z -> array3 cell) : Prop :=
  forall A f B o s q q', joined w A f B o -> outward (nface f) s ->
    (forall a, a <> fst s -> interiorAt KCcAll ng (sb_dims A) q a) ->
    (- (2 * h) < pos KCcAll q (fst s) - facePlane ng (sb_dims A) s < 2 * h)%Z ->
    glued ng (sb_dims A) (sb_dims B) s o (pos KCcAll q) (pos KCcAll q') ->
    at3 (c (num A)) q = at3 (c (num B)) q'.
(** the flux kernel looks at h cells on each side of the face only *)
Definition reads (h : Z) (f : flux1) : Prop :=
  forall g st st' l, (forall m, (- h <= m < h)%Z -> st m = st' m) -> f g st l = f g st' l.
Definition antisymmetricOn (P : cell -> Prop) (h : Z) (f : flux1) : Prop :=
  forall g st l, (0 <= l)%Z -> (forall m, (- h <= m < h)%Z -> P (st m)) -> f (reverseFace g) (reverseCells st) l = - f g st l.

(** Kinetic-energy budget of a block: face values of the kinetic-energy flux and of the mean pressure force. *)
Definition below (c : array3 cell) (a : axis) (i j k : Z) : cell :=
  match a with I => c (i-1)%Z j k | J => c i (j-1)%Z k | K => c i j (k-1)%Z end.
Definition faceGeo (X : nodes) (a : axis) : Z -> Z -> Z -> fgeo := match a with I => geoI X | J => geoJ X | K => geoK X end.
Definition keFluxes (X : nodes) (c : array3 cell) (a : axis) : array3 R :=
  fun i j k => keFlux (faceGeo X a i j k) (below c a i j k) (c i j k).
Definition pressureForces (X : nodes) (c : array3 cell) (a : axis) : Z -> Z -> Z -> vec :=
  fun i j k => meanPressureForce (faceGeo X a i j k) (below c a i j k) (c i j k).
(** low-side value minus high-side value, summed over the three directions *)
Definition netR (F : axis -> array3 R) (i j k : Z) : R :=
  (F I i j k - F I (i+1)%Z j k) + (F J i j k - F J i (j+1)%Z k) + (F K i j k - F K i j (k+1)%Z).
Definition netV (F : axis -> Z -> Z -> Z -> vec) (i j k : Z) : vec :=
  vadd (vadd (vsub (F I i j k) (F I (i+1)%Z j k)) (vsub (F J i j k) (F J i (j+1)%Z k))) (vsub (F K i j k) (F K i j (k+1)%Z)).
(** rate of change of kinetic energy of a cell with velocity u: u . d(rho u) - |u|^2/2 d(rho) *)
Definition keRate (c : cell) (d : Z -> R) : R :=
  c_u c * d 1%Z + c_v c * d 2%Z + c_w c * d 3%Z - dot3 (vel c) (vel c) / 2 * d 0%Z.

(** Euler flux and conserved variables of a face state, for the Riemann solvers *)
Definition stateFlux (g : fgeo) (s : fstate) (l : Z) : R :=
  let U := dot3 (f_u s, f_v s, f_w s) (gs g) in
  match l with
  | 0%Z => f_rho s * U
  | 1%Z => f_rho s * f_u s * U + f_p s * vx (gs g)
  | 2%Z => f_rho s * f_v s * U + f_p s * vy (gs g)
  | 3%Z => f_rho s * f_w s * U + f_p s * vz (gs g)
  | 4%Z => (f_E s + f_p s) * U
  | _ => f_rY s l * U
  end.
Definition stateCons (s : fstate) (l : Z) : R :=
  match l with 0%Z => f_rho s | 1%Z => f_rho s * f_u s | 2%Z => f_rho s * f_v s | 3%Z => f_rho s * f_w s | 4%Z => f_E s | _ => f_rY s l end.
(** central flux minus dissipation with wave speed lam *)
Definition upwindForm (lam : R) (g : fgeo) (L Rs : fstate) (l : Z) : R :=
  (stateFlux g L l + stateFlux g Rs l) / 2 - lam * gS g / 2 * (stateCons Rs l - stateCons L l).
Definition stateSpeed (g : fgeo) (s : fstate) : R := Rabs (dot3 (f_u s, f_v s, f_w s) (gn g)) + f_c s.
