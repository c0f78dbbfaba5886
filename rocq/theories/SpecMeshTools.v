(** Specification vocabulary for the mesh helpers. *)
From Verif Require Import Prelude ModelSemiLagrangian ModelSEDG ModelSparsity ModelMeshTools.
Local Open Scope R_scope.

(** The active cell at the end of a path of subfaces; [child i] is the child at subface [i]. *)
Fixpoint active_at (child : nat -> nat) (p : list nat) (t : tree) : option nat :=
  match t, p with
  | Active x, [] => Some x
  | Refined a, i :: r => active_at child r (a (child i))
  | _, _ => None
  end.
Definition path (n : nat) (p : list nat) : Prop := Forall (fun i => (i < n)%nat) p.
(** Subface [i] of the first face lies opposite to subface [table i] of the second, and so on for their subfaces: both faces are
    refined alike. *)
Definition refined_alike (n : nat) (table child1 child2 : nat -> nat) (t1 t2 : tree) : Prop :=
  forall p, path n p -> (active_at child1 p t1 = None <-> active_at child2 (map table p) t2 = None).
(** deal.II numbers the subfaces of a turned face differently: [turn] is a permutation that commutes with the table (it is the
    same rotation or reflection, or its inverse). *)
Definition turning (n : nat) (table turn : nat -> nat) : Prop :=
  (forall i, (i < n)%nat -> (turn i < n)%nat /\ turn (table i) = table (turn i)) /\ (forall i, (i < n)%nat -> exists j, (j < n)%nat /\ turn j = i).

(** The children of a face by their place in the square (or on the line): child 1 lies beside child 0 in x, child 2 in y. *)
Definition place (i : nat) : nat * nat := ((i mod 2)%nat, (i / 2)%nat).
(** Turns and reflection of the square with corners 0 and 1. *)
Definition quarter_turn (p : nat * nat) : nat * nat := ((1 - snd p)%nat, fst p).
Definition half_turn (p : nat * nat) : nat * nat := ((1 - fst p)%nat, (1 - snd p)%nat).
Definition transposed (p : nat * nat) : nat * nat := (snd p, fst p).
(** What the three flags mean. *)
Definition turned (orientation flip rotation : bool) (p : nat * nat) : nat * nat :=
  let q := if rotation then quarter_turn p else p in
  let r := if flip then half_turn q else q in
  if orientation then r else transposed r.

(** Degree of freedom [d] lies on a boundary that is not periodic. *)
Definition on_wall {cell} (S : space cell) (m : mesh cell) (cells : list cell) (d : nat) : Prop :=
  exists c f id s i, In c cells /\ (f < faces_per_cell S)%nat /\ me_face m c f = AtBoundary id /\ In (id, s) (me_walls m) /\
    (i < dofs_per_cell S)%nat /\ has_support_on_face S i f = true /\ dof_index S c i = d.

(** All vertices of the face closer than [tol] to the plane. *)
Definition lies_on (vertices : nat -> list (nat -> R)) (component : nat) (value tol : R) (f : nat) : Prop :=
  forall v, In v (vertices f) -> Rabs (v component - value) < tol.
