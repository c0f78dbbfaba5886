(** Specification vocabulary for the sparsity pattern of the discontinuous Galerkin operator. *)
From Verif Require Import Prelude ModelStencils ModelSemiLagrangian ModelSEDG ModelSparsity.
Local Open Scope R_scope.

Section Mesh.
  Context {cell : Type} (S : space cell) (m : mesh cell) (cells : list cell).
  (** [S] is the finite element space on the mesh: every face has the side the assembly finds. *)
  Definition built_on : Prop := forall c f, In c cells -> (f < faces_per_cell S)%nat -> assembled_side m c f = Ok (at_face S c f).
  (** Neighbouring faces are faces of cells. *)
  Definition faces_exist : Prop := forall c f c' f', In c cells -> (f < faces_per_cell S)%nat -> at_face S c f = Beyond c' f' -> (f' < faces_per_cell S)%nat.
  (** A boundary id belongs to one periodic boundary, found under both its ids. *)
  Definition periodic_keys : Prop :=
    (forall k p, In (k, p) (me_periodic m) -> find_periodic m (pb_1 p) = Some p /\ find_periodic m (pb_2 p) = Some p) /\
    (forall k p, find_periodic m k = Some p -> k = pb_1 p \/ k = pb_2 p).
  (** All other boundaries are known and supported. *)
  Definition walls_supported : Prop := (forall w, In w (me_walls m) -> snd w = true) /\
    forall c f b, In c cells -> (f < faces_per_cell S)%nat -> at_face S c f = Outside b -> In (b, true) (me_walls m).
  (** Boundary ids are the numbers of the faces, as in a colorized hyper-rectangle. *)
  Definition ids_are_faces : Prop := forall c f id, In c cells -> (f < faces_per_cell S)%nat -> me_face m c f = AtBoundary id -> id = f.
  (** The degrees of freedom of two faces that meet are numbered in the same order. *)
  Definition same_order (fd : nat -> nat -> nat) : Prop := forall c f c' f' q q', In c cells -> (f < faces_per_cell S)%nat -> at_face S c f = Beyond c' f' ->
    (q < n_face_points S)%nat -> (q' < n_face_points S)%nat -> (fd f q < fd f q' <-> fd f' q < fd f' q')%nat.
End Mesh.

(** Every entry added to the matrix has its place. *)
Definition has_place (pattern : nat -> nat -> list (nat * nat)) (entries : list entry) : Prop :=
  forall I J i j v, In (I, J, i, j, v) entries -> In (i, j) (pattern I J).
