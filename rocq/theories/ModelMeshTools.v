(** Model of three helpers of utilities/DealiiExtensions.cpp: make_periodicity_map_dg on refined cells,
    extract_dofs_with_support_on_boundary with its use in solver/CFDSolver.cpp, set_boundary_ids_at_hyperplane. *)
From Verif Require Import Prelude ModelSemiLagrangian ModelSEDG ModelSparsity.
Local Open Scope R_scope.

(** ** Refined cells at periodic boundaries *)
(** A cell of the coarsest mesh with its descendants. *)
Inductive tree := Active (id : nat) | Refined (child : nat -> tree).
(** DealiiExtensions.cpp:414-431: the tables; max_children_per_face is 2 or 4. *)
Definition lookup_table_2d (flip : bool) (i : nat) : nat := nth i (if flip then [1; 0] else [0; 1])%nat 0%nat.
Definition lookup_table_3d (orientation flip rotation : bool) (i : nat) : nat :=
  nth i (match orientation, flip, rotation with
         | false, false, false => [0; 2; 1; 3] | false, false, true => [2; 3; 0; 1]
         | false, true, false => [3; 1; 2; 0] | false, true, true => [1; 0; 3; 2]
         | true, false, false => [0; 1; 2; 3] | true, false, true => [1; 3; 0; 2]
         | true, true, false => [3; 2; 1; 0] | true, true, true => [2; 0; 3; 1] end)%nat 0%nat.
Definition children_per_face (dim : nat) : nat := if Nat.eqb dim 2 then 2%nat else 4%nat.
Definition lookup (dim : nat) (orientation flip rotation : bool) : nat -> nat :=
  if Nat.eqb dim 2 then lookup_table_2d flip else lookup_table_3d orientation flip rotation.

(** DealiiExtensions.cpp:384-556, the low level function for two cells; [child1 i], [child2 i]: child_cell_on_face of deal.II
    for the two face numbers and the flags.  Result: the pairs of active cells entered.  If only one of the cells has
    children, the objects of class PeriodicBoundaryNotPossible are created but not thrown (lines 480-485), and the function
    returns at line 521. *)
Fixpoint make_pairs (n : nat) (table child1 child2 : nat -> nat) (t1 t2 : tree) : list (nat * nat) :=
  match t1, t2 with
  | Refined a, Refined b => flat_map (fun i => make_pairs n table child1 child2 (a (child1 i)) (b (child2 (table i)))) (List.seq 0 n)
  | Active x, Active y => [(x, y)]
  | _, _ => []
  end.
Definition make_periodicity_map_dg (dim : nat) (orientation flip rotation : bool) (child1 child2 : nat -> nat) (t1 t2 : tree) : outcome (list (nat * nat)) :=
  Ok (make_pairs (children_per_face dim) (lookup dim orientation flip rotation) child1 child2 t1 t2).

(** ** Degrees of freedom at boundaries *)
Section Extract.
  Context {cell : Type} (S : space cell) (m : mesh cell).
  (** DealiiExtensions.cpp:616-694 without component mask. *)
  Definition extract_dofs (ids : list nat) (cells : list cell) (d : nat) : bool :=
    existsb (fun c => existsb (fun f => match me_face m c f with
      | AtBoundary id => ((match ids with [] => true | _ => existsb (Nat.eqb id) ids end) &&
          existsb (fun i => has_support_on_face S i f && Nat.eqb (dof_index S c i) d) (List.seq 0 (dofs_per_cell S)))%bool
      | Shared _ _ => false end) (List.seq 0 (faces_per_cell S))) cells.
  (** CFDSolver.cpp:536-558: "Number of non-periodic boundary grid points". *)
  Definition boundary_points (n_dofs : nat) (cells : list cell) : nat :=
    length (List.filter (extract_dofs (map fst (me_walls m)) cells) (List.seq 0 n_dofs)).
End Extract.

(** ** Boundary ids on a plane *)
(** DealiiExtensions.cpp:775-800; cells are lists of faces, a face has vertices and a boundary id (None: interior,
    internal_face_boundary_id; deal.II's at_boundary is boundary_id <> internal_face_boundary_id). *)
Definition on_plane (vertices : nat -> list (nat -> R)) (component : nat) (value tol : R) (f : nat) : bool :=
  forallb (fun v => if Rle_dec (value + tol) (v component) then false else if Rle_dec (v component) (value - tol) then false else true) (vertices f).
Definition set_boundary_ids_at_hyperplane (dim : nat) (cells : list (list nat)) (vertices : nat -> list (nat -> R)) (component : nat) (value : R) (boundary_id : nat) (tol : R)
  (ids : nat -> option nat) : outcome (nat -> option nat) :=
  if Nat.ltb component dim then
    Ok (fold_left (fun s f => if on_plane vertices component value tol f then fun g => if Nat.eqb g f then Some boundary_id else s g else s) (concat cells) ids)
  else Throw.
