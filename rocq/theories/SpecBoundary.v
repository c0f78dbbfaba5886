(** Specifications for boundary collections and periodic boundaries. *)
From Verif Require Import Prelude ModelBoundary.
Local Open Scope R_scope.

(** The indicators of a boundary. *)
Definition ids_of (b : boundary) : list nat := match b with Plain _ i => [i] | PeriodicB _ i j => [i; j] end.
(** The first boundary of a history that mentions indicator [k]. *)
Definition first_with (l : list boundary) (k : nat) : option boundary :=
  find (fun b => existsb (Nat.eqb k) (ids_of b)) l.
(** Collections that can be built. *)
Definition built (l : list boundary) : collection := fst (add_all empty_collection l).

(** Every cell lies at one face pair only. *)
Definition separate (pairs : list facepair) : Prop :=
  NoDup (flat_map (fun p => [fp_cell0 p; fp_cell1 p]) pairs).
(** [y] agrees with [x] in the first [dim] components. *)
Definition same_point (dim : nat) (x y : nat -> R) : Prop := forall i, (i < dim)%nat -> x i = y i.
(** The matrix inversion is right on the unit matrix. *)
Definition inverts_unit (dim : nat) (inv : nat -> (nat -> nat -> R) -> nat -> nat -> R) : Prop :=
  forall i j, (i < dim)%nat -> (j < dim)%nat -> inv dim delta i j = delta i j.
(** Number of vertices of a face, and the vertex of the first face opposite to vertex [v] of the
    second: the faces are numbered alike, except for a flipped face in two dimensions. *)
Definition face_vertices (dim : nat) : nat := if Nat.eqb dim 3 then 4%nat else 2%nat.
Definition standard (dim : nat) (p : facepair) : Prop :=
  dim = 2%nat \/ (dim = 3%nat /\ fp_flip p = false /\ fp_rotation p = false).
Definition opposite_vertex (dim : nat) (p : facepair) (v : nat) : nat :=
  if (Nat.eqb dim 2 && fp_flip p)%bool then (1 - v)%nat else v.
(** Opposite vertices of the two faces differ by the same vector [o]. *)
Definition matching (vertex : nat -> nat -> nat -> nat -> R) (dim : nat) (p : facepair) (o : nat -> R) : Prop :=
  forall v i, (v < face_vertices dim)%nat -> (i < dim)%nat ->
    vertex (fp_cell0 p) (fp_face0 p) (opposite_vertex dim p v) i = vertex (fp_cell1 p) (fp_face1 p) v i + o i.
(** The point with weights [w] in the vertices [x]. *)
Definition weighted (n : nat) (w : nat -> R) (x : nat -> nat -> R) (i : nat) : R := sumf n (fun v => w v * x v i).
