(** Specification vocabulary: what two blocks must have in common at a shared face for the whole right-hand side. *)
From Coq Require Import Reals ZArith List Bool.
From Verif Require Import M_Topology S_Topology M_Halo S_Halo M_Grid M_Metrics S_Metrics.
Import ListNotations.
Open Scope R_scope.

(** Within h cells of a shared face (and not beyond the face's edges) both blocks hold the same values. *)
Definition sharedValues {C : Type} (ng h : Z) (w : list (list sblock)) (c : Z -> array3 C) : Prop :=
  forall A f B o s q q', joined w A f B o -> outward (nface f) s ->
    (forall a, a <> fst s -> interiorAt KCcAll ng (sb_dims A) q a) ->
    (- (2 * h) < pos KCcAll q (fst s) - facePlane ng (sb_dims A) s < 2 * h)%Z ->
    glued ng (sb_dims A) (sb_dims B) s o (pos KCcAll q) (pos KCcAll q') ->
    at3 (c (num A)) q = at3 (c (num B)) q'.
(** Both blocks have the same nodes on the shared face and one layer to either side of it (the halo nodes of each are
    nodes of the other), possibly up to a translation (periodic faces). *)
Definition sharedLayer (ng : Z) (w : list (list sblock)) (X : Z -> nodes) : Prop :=
  forall A f B o s, joined w A f B o -> outward (nface f) s ->
   exists t, forall q q', (forall a, a <> fst s -> interiorAt KNode ng (sb_dims A) q a) ->
    (-2 <= pos KNode q (fst s) - facePlane ng (sb_dims A) s <= 2)%Z ->
    glued ng (sb_dims A) (sb_dims B) s o (pos KNode q) (pos KNode q') ->
    at3 (X (num B)) q' = vadd (at3 (X (num A)) q) t.
(** every connection joins faces normal to the same index axis (i faces to i faces, and so on) *)
Definition axisKept (w : list (list sblock)) : Prop :=
  forall A f B o s, joined w A f B o -> outward (nface f) s -> fst (o (fst s)) = fst s.
