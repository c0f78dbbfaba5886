(** Specification vocabulary for the discontinuous Galerkin advection operator. *)
From Verif Require Import Prelude ModelStencils ModelSemiLagrangian ModelSEDG.
Local Open Scope R_scope.

Fixpoint total {A} (l : list A) (g : A -> R) : R := match l with [] => 0 | x :: r => g x + total r g end.

Section Space.
  Context {cell : Type} (S : space cell).
  (** Lagrange polynomials in the quadrature points: [qn i] is the point of shape function [i], [fd f q] is the shape
      function of point [q] of face [f]. *)
  Record collocated (qn : nat -> nat) (fd : nat -> nat -> nat) : Prop := {
    co_point : forall i, (i < dofs_per_cell S)%nat -> (qn i < n_quadrature_points S)%nat;
    co_value : forall i q, (i < dofs_per_cell S)%nat -> (q < n_quadrature_points S)%nat -> shape_value S i q = if Nat.eqb q (qn i) then 1 else 0;
    co_face : forall f q, (f < faces_per_cell S)%nat -> (q < n_face_points S)%nat -> (fd f q < dofs_per_cell S)%nat;
    co_face_inj : forall f q q', (f < faces_per_cell S)%nat -> (q < n_face_points S)%nat -> (q' < n_face_points S)%nat -> fd f q = fd f q' -> q = q';
    co_face_value : forall f i q, (f < faces_per_cell S)%nat -> (i < dofs_per_cell S)%nat -> (q < n_face_points S)%nat ->
      face_shape_value S f i q = if Nat.eqb i (fd f q) then 1 else 0;
    co_support : forall f i, (f < faces_per_cell S)%nat -> (i < dofs_per_cell S)%nat ->
      has_support_on_face S i f = true <-> exists q, (q < n_face_points S)%nat /\ fd f q = i }.

  Variables (qn : nat -> nat) (fd : nat -> nat -> nat).
  (** Volume that belongs to a degree of freedom; derivative, at the point of shape function [i], of the function with the
      values [v] in the points. *)
  Definition volume (c : cell) (i : nat) : R := JxW S c (qn i).
  Definition slope (c : cell) (v : nat -> R) (i k : nat) : R := sumf (dofs_per_cell S) (fun j => v j * shape_grad S c j (qn i) k).
  (** Integration by parts holds for the quadrature (Gauss-Lobatto points on cells with straight, parallel faces). *)
  Definition by_parts (c : cell) : Prop := forall k u v, (k < sp_dim S)%nat ->
    sumf (dofs_per_cell S) (fun i => volume c i * (u i * slope c v i k + slope c u i k * v i))
    = sumf (faces_per_cell S) (fun f => sumf (n_face_points S) (fun q => face_JxW S c f q * face_normal S c f q k * (u (fd f q) * v (fd f q)))).
  (** Constants have no slope. *)
  Definition flat_constants (c : cell) : Prop := forall i k, (i < dofs_per_cell S)%nat -> (k < sp_dim S)%nat -> slope c (fun _ => 1) i k = 0.

  (** Two cells at a face see the same points, with opposite normals. *)
  Definition conforming (cells : list cell) : Prop := forall c f c' f', In c cells -> (f < faces_per_cell S)%nat -> at_face S c f = Beyond c' f' ->
    In c' cells /\ (f' < faces_per_cell S)%nat /\ at_face S c' f' = Beyond c f /\
    forall q, (q < n_face_points S)%nat -> face_JxW S c' f' q = face_JxW S c f q /\ forall k, (k < sp_dim S)%nat -> face_normal S c' f' q k = - face_normal S c f q k.
  (** Every cell has degrees of freedom of its own. *)
  Definition numbered (cells : list cell) : Prop := forall c c' i j, In c cells -> In c' cells -> (i < dofs_per_cell S)%nat -> (j < dofs_per_cell S)%nat ->
    dof_index S c i = dof_index S c' j -> c = c' /\ i = j.

  Record good_mesh (cells : list cell) : Prop := {
    gm_dim : (sp_dim S = 2 \/ sp_dim S = 3)%nat;
    gm_dofs : (0 < dofs_per_cell S)%nat;
    gm_collocated : collocated qn fd;
    gm_nodup : NoDup cells;
    gm_numbered : numbered cells;
    gm_conforming : conforming cells;
    gm_volume : forall c q, In c cells -> (q < n_quadrature_points S)%nat -> 0 < JxW S c q;
    gm_parts : forall c, In c cells -> by_parts c;
    gm_flat : forall c, In c cells -> flat_constants c }.
  (** No walls: the domain is periodic. *)
  Definition no_walls (cells : list cell) : Prop := forall c f, In c cells -> (f < faces_per_cell S)%nat -> exists c' f', at_face S c f = Beyond c' f'.

  (** Integral of population [a] over the domain. *)
  Definition integral (cells : list cell) (f : nat -> nat -> R) (a : nat) : R :=
    total cells (fun c => sumf (dofs_per_cell S) (fun i => volume c i * f a (dof_index S c i))).
  (** Single-valued at the points two cells share. *)
  Definition continuous (cells : list cell) (g : nat -> R) : Prop := forall c f c' f' q, In c cells -> (f < faces_per_cell S)%nat -> (q < n_face_points S)%nat ->
    at_face S c f = Beyond c' f' -> g (dof_index S c (fd f q)) = g (dof_index S c' (fd f' q)).

  (** Velocity of direction [a] out of the cell; value behind the face: the neighbour's, or the population that comes back from
      a wall moving with [u]. *)
  Definition outward (st : stencil) (a : nat) (c : cell) (f q : nat) : R := sumf (sp_dim S) (fun k => face_normal S c f q k * st_e st a k).
  Definition opposite (st : stencil) (a : nat) : nat := match st_opp st a with Some b => b | None => 0%nat end.
  Definition wall_shift (st : stencil) (u : point) (a : nat) : R := 2 * st_w st a * sumf (sp_dim S) (fun k => u k * st_e st a k) / st_cs2 st.
  Definition behind (st : stencil) (velocity : nat -> option (point -> point)) (F : nat -> nat -> R) (a : nat) (c : cell) (f q : nat) : R :=
    match at_face S c f with
    | Beyond c' f' => F a (dof_index S c' (fd f' q))
    | Outside b => match velocity b with
                   | Some u => F (opposite st a) (dof_index S c (fd f q)) + wall_shift st (u (face_point S c f q)) a
                   | None => 0
                   end
    end.
  (** All walls have the one supported condition. *)
  Definition supported (velocity : nat -> option (point -> point)) (cells : list cell) : Prop := forall c f b, In c cells -> (f < faces_per_cell S)%nat ->
    at_face S c f = Outside b -> velocity b <> None.
End Space.

Section Balance.
  Context {cell : Type} (S : space cell) (qn : nat -> nat) (fd : nat -> nat -> nat).
  (** Volume the walls sweep out per time. *)
  Definition wall_flux (velocity : nat -> option (point -> point)) (cells : list cell) : R :=
    total cells (fun c => sumf (faces_per_cell S) (fun f =>
      match at_face S c f with
      | Beyond _ _ => 0
      | Outside b => match velocity b with
                     | Some u => sumf (n_face_points S) (fun q => face_JxW S c f q * sumf (sp_dim S) (fun k => face_normal S c f q k * u (face_point S c f q) k))
                     | None => 0
                     end
      end)).
  Definition resting_walls (velocity : nat -> option (point -> point)) (cells : list cell) : Prop := forall c f b u x k, In c cells -> (f < faces_per_cell S)%nat ->
    at_face S c f = Outside b -> velocity b = Some u -> u x k = 0.
  (** Integral of the product, over the domain. *)
  Definition inner (cells : list cell) (g h : nat -> R) : R := total cells (fun c => sumf (dofs_per_cell S) (fun i => volume S qn c i * (g (dof_index S c i) * h (dof_index S c i)))).
  (** Integral, over both sides of all faces, of the squared jumps of population [a], by the speed normal to the face. *)
  Definition jumps (st : stencil) (velocity : nat -> option (point -> point)) (cells : list cell) (F : nat -> nat -> R) (a : nat) : R :=
    total cells (fun c => sumf (faces_per_cell S) (fun f => sumf (n_face_points S) (fun q =>
      face_JxW S c f q * Rabs (outward S st a c f q) * (F a (dof_index S c (fd f q)) - behind S fd st velocity F a c f q) ^ 2))).
  (** Sum over the moving directions. *)
  Definition over_directions (st : stencil) (g : nat -> R) : R := sumf (st_Q st - 1) (fun b => g (Datatypes.S b)).
End Balance.

(** Equilibrium of density 1 and velocity [u]. *)
Definition equilibrium1 (st : stencil) (u : point) (a : nat) : R :=
  let eu := sumf (st_D st) (fun k => u k * st_e st a k) in
  st_w st a * (1 + eu / st_cs2 st + eu * eu / (2 * (st_cs2 st * st_cs2 st)) - sumf (st_D st) (fun k => u k * u k) / (2 * st_cs2 st)).
