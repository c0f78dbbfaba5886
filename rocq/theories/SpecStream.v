(** Specifications for the semi-Lagrangian streaming on meshes without boundaries. *)
From Verif Require Import Prelude ModelSemiLagrangian SpecSemiLagrangian.
Local Open Scope R_scope.

Definition agree (D : nat) (x y : point) : Prop := forall i, (i < D)%nat -> x i = y i.
(** The point with unit coordinates [u] lies on face [f] (deal.II numbering) of the closed cell. *)
Definition on_face (D f : nat) (u : point) : Prop := (f < 2 * D)%nat /\ inside D u /\ u (f / 2)%nat = INR (f mod 2).

Section Closed.
  Context {cell : Type} (M : mesh cell) (ok : cell -> Prop) (same : point -> point -> Prop).
  (** [ok]: the cells of the mesh; [same]: equal up to the periods. *)
  Record closed_mesh : Prop := {
    (* the mapping of each cell can be inverted *)
    cm_unit : forall c x, ok c -> exists u, to_unit M c x = Some u /\ (nearly_inside (dim M) u -> agree (dim M) (to_real M c u) x);
    cm_real : forall c u, ok c -> inside (dim M) u -> exists v, to_unit M c (to_real M c u) = Some v /\ agree (dim M) v u;
    (* behind each face there is a cell of the same mesh, and points on the face belong to both *)
    cm_face : forall c f u, ok c -> on_face (dim M) f u ->
      match face_behind M c f with
      | Neighbor c' => ok c' /\ owned_or_ghost M c' = true /\ located M c' (to_real M c u)
      | PeriodicFace across c' => ok c' /\ located M c' (across (to_real M c u)) /\ forall x, same (across x) x
      | _ => False
      end;
    cm_agree : forall x y, agree (dim M) x y -> same x y;
    cm_sym : forall x y, same x y -> same y x;
    cm_trans : forall x y z, same x y -> same y z -> same x z }.

  (** A path from [p] in cell [c] to the point [q] that leaves [k] cells one after the other, each through a face the target
      lies beyond, and at a point at most 2e-10 (in unit coordinates) off the straight line. *)
  Inductive chain : nat -> cell -> point -> point -> Prop :=
  | chain_start c p q : chain 0 c p q
  | chain_next k c p q f u pu qu lam c' p' q' :
      to_unit M c p = Some pu -> to_unit M c q = Some qu -> ~ nearly_inside (dim M) qu ->
      on_face (dim M) f u -> beyond qu (f / 2) (f mod 2) -> 0 <= lam <= 1 ->
      (forall i, (i < dim M)%nat -> Rabs (u i - along pu qu lam i) < 2 / 10 ^ 10) ->
      match face_behind M c f with
      | Neighbor c1 => c' = c1 /\ p' = to_real M c u /\ q' = q
      | PeriodicFace across c1 => c' = c1 /\ p' = across (to_real M c u) /\ q' = across q
      | _ => False
      end ->
      chain k c' p' q' -> chain (S k) c p q.

  Context (n : nat) (node : nat -> point) (dofs : cell -> nat -> nat).
  (** No path from a support point against a direction of the stencil leaves 50 cells. *)
  Definition within_limit (e : nat -> point) (dt : R) (Q : nat) (cells : list cell) : Prop :=
    forall c j a, In c cells -> (j < n)%nat -> (1 <= a < Q)%nat ->
    ~ chain 50 c (to_real M c (node j)) (fun i => to_real M c (node j) i - dt * e a i).
  (** Degrees of freedom with the same number sit at the same place up to the periods, and so do all points shifted from there. *)
  Definition dofs_agree (cells : list cell) : Prop :=
    forall c c' j j' v, In c cells -> In c' cells -> (j < n)%nat -> (j' < n)%nat -> dofs c j = dofs c' j' ->
    same (fun i => to_real M c (node j) i - v i) (fun i => to_real M c' (node j') i - v i).
  (** [F] changes by at most [eps] over 1e-10 of a cell. *)
  Definition changes_little (F : point -> R) (eps : R) : Prop :=
    forall c u v, ok c -> (forall i, (i < dim M)%nat -> Rabs (u i - v i) <= 1 / 10 ^ 10) -> Rabs (F (to_real M c u) - F (to_real M c v)) <= eps.
End Closed.
