(** Model of the discontinuous Galerkin advection operator: advection/SEDGMinLee.cpp and the assembly of
    boundaries/VelocityNeqBounceBack.cpp.  The functions of deal.II (values and gradients of shape functions,
    quadrature weights times Jacobian, normals, numbering of degrees of freedom, neighbours) are the fields of
    [space]; a face at a periodic boundary has the cell found by PeriodicBoundary as its neighbour.
    One process owns all cells. *)
From Verif Require Import Prelude ModelStencils ModelSemiLagrangian.
Local Open Scope R_scope.

(** What lies behind a face: SEDGMinLee.cpp:371-408. *)
Inductive side (cell : Type) := Beyond (c : cell) (f : nat) | Outside (b : nat).
Arguments Beyond {cell}. Arguments Outside {cell}.

Record space (cell : Type) := mkSpace {
  sp_dim : nat;
  dofs_per_cell : nat; n_quadrature_points : nat; n_face_points : nat; faces_per_cell : nat;
  shape_value : nat -> nat -> R;                 (* fe_cell_values.shape_value(i, q) *)
  face_shape_value : nat -> nat -> nat -> R;     (* fe_face_values.shape_value(i, q) on face f: f, i, q *)
  shape_grad : cell -> nat -> nat -> nat -> R;   (* fe_cell_values.shape_grad(j, q)[k] *)
  JxW : cell -> nat -> R;
  face_JxW : cell -> nat -> nat -> R;            (* face, q *)
  face_normal : cell -> nat -> nat -> nat -> R;  (* face, q, component *)
  face_point : cell -> nat -> nat -> point;      (* fe_face_values.quadrature_point(q) *)
  has_support_on_face : nat -> nat -> bool;      (* i, face *)
  dof_index : cell -> nat -> nat;                (* get_dof_indices *)
  at_face : cell -> nat -> side cell }.
Arguments sp_dim {cell}. Arguments dofs_per_cell {cell}. Arguments n_quadrature_points {cell}. Arguments n_face_points {cell}.
Arguments faces_per_cell {cell}. Arguments shape_value {cell}. Arguments face_shape_value {cell}. Arguments shape_grad {cell}.
Arguments JxW {cell}. Arguments face_JxW {cell}. Arguments face_normal {cell}. Arguments face_point {cell}.
Arguments has_support_on_face {cell}. Arguments dof_index {cell}. Arguments at_face {cell}.

(** Quadrature points at which a shape function is above 1e-10; the assertion SEDGMinLee.cpp:558, 586, 618. *)
Definition above (v : nat -> R) (n : nat) : outcome (list nat) :=
  let found := List.filter (fun q => if Rlt_dec (1 / 10 ^ 10) (v q) then true else false) (List.seq 0 n) in
  if forallb (fun q => if Rlt_dec (Rabs (v q - 1)) (1 / 10 ^ 10) then true else false) found then Ok found else Throw.

(** std::map::at. *)
Definition map_at (m : list (nat * nat)) (k : nat) : outcome nat :=
  match List.find (fun p => Nat.eqb (fst p) k) m with Some p => Ok (snd p) | None => Throw end.

Section Assembly.
  Context {cell : Type} (S : space cell) (st : stencil) (central : bool).
  (** Boundaries that are not periodic: the velocity of a VelocityNeqBounceBack (isDGSupported; at the time stored
      in the function object), or another boundary. *)
  Variable velocity : nat -> option (point -> point).
  Let n := dofs_per_cell S.

  (** SEDGMinLee.cpp:538-566. *)
  Definition map_celldofs_to_q_index : outcome (list (nat * nat)) :=
    collect (fun i => obind (above (shape_value S i) (n_quadrature_points S)) (fun l =>
      match l with [q] => Ok [(i, q)] | _ => Throw end)) (List.seq 0 n).
  (** SEDGMinLee.cpp:600-630 for face [f]. *)
  Definition map_q_index_to_facedofs (f : nat) : outcome (list (nat * nat)) :=
    obind (collect (fun i => obind (above (face_shape_value S f i) (n_face_points S)) (fun l =>
      match l with [] => Ok [] | [q] => Ok [(q, i)] | _ => Throw end)) (List.seq 0 n)) (fun m =>
    if Nat.eqb (length (nodup Nat.eq_dec (map fst m))) (n_face_points S) then Ok m else Throw).

  Section Cell.
    Variables (qmap : list (nat * nat)) (fmap : nat -> list (nat * nat)) (c : cell).
    Definition q_of (i : nat) : nat := match map_at qmap i with Ok q => q | _ => 0%nat end.
    (** SEDGMinLee.cpp:320-334, 161-163. *)
    Definition mass_matrix (i : nat) : R := 0 + shape_value S i (q_of i) * shape_value S i (q_of i) * JxW S c (q_of i).
    Definition inverse_mass (i : nat) : R := 1 / mass_matrix i.
    (** SEDGMinLee.cpp:336-358. *)
    Definition derivative_matrix (k i j : nat) : R := 0 + shape_grad S c j (q_of i) k * (shape_value S i (q_of i) * JxW S c (q_of i)).
    (** SEDGMinLee.cpp:414-458, two and three dimensions. *)
    Definition local_system_matrix (e : nat -> R) (i j : nat) : R :=
      match sp_dim S with
      | 3%nat => derivative_matrix 0 i j * - e 0%nat + (- e 1%nat * derivative_matrix 1 i j + - e 2%nat * derivative_matrix 2 i j)
      | _ => derivative_matrix 0 i j * - e 0%nat + - e 1%nat * derivative_matrix 1 i j
      end.
    Definition stiffness_entries (a : nat) : list entry :=
      flat_map (fun j => map (fun k => ((a - 1)%nat, (a - 1)%nat, dof_index S c j, dof_index S c k,
        local_system_matrix (st_e st a) j k * inverse_mass j)) (List.seq 0 n)) (List.seq 0 n).

    (** SEDGMinLee.cpp:505-513: JxW times (normal . direction). *)
    Definition exn (a f q : nat) : R := sumf (sp_dim S) (fun i => face_normal S c f q i * st_e st a i).
    (** SEDGMinLee.cpp:460-536 assembleAndDistributeInternalFace. *)
    Definition internal_face (a f : nat) (c' : cell) (f' : nat) : outcome (list entry) :=
      collect (fun q =>
        obind (map_at (fmap f) q) (fun i => obind (map_at (fmap f') q) (fun j =>
        if Rlt_dec 0 (face_shape_value S f i q) then if Rlt_dec 0 (face_shape_value S f' j q) then
          let x := exn a f q in
          let prefactor := face_JxW S c f q * x in
          let '(cell_entry, neighbor_entry) :=
            if central then (1 / 2 * prefactor, 1 / 2 * prefactor)
            else if Rlt_dec x 0 then (prefactor, - prefactor) else (0, 0) in
          Ok [((a - 1)%nat, (a - 1)%nat, dof_index S c i, dof_index S c i, cell_entry * inverse_mass i);
              ((a - 1)%nat, (a - 1)%nat, dof_index S c i, dof_index S c' j, neighbor_entry * inverse_mass i)]
        else Throw else Throw))) (List.seq 0 (n_face_points S)).

    (** VelocityNeqBounceBack.cpp:46-131 assembleBoundary: the arrays over the degrees of freedom of the cell
        (cellFaceMatrix, oppositeDirectionCellFaceMatrix, cellFaceVector), zero at first. *)
    Fixpoint wall_arrays (a f : nat) (u : point -> point) (qs : list nat) (arrays : nat -> R * R * R) : outcome (nat -> R * R * R) :=
      match qs with
      | [] => Ok arrays
      | q :: r => obind (map_at (fmap f) q) (fun i =>
          let x := exn a f q in
          let prefactor := face_JxW S c f q * x in
          let density := 1 in
          let exu := sumf (sp_dim S) (fun k => u (face_point S c f q) k * st_e st a k) in
          let set v := fun i' => if Nat.eqb i' i then v else arrays i' in
          wall_arrays a f u r
            (if central then set (1 / 2 * prefactor, 1 / 2 * prefactor, - prefactor * st_w st a * density * exu / st_cs2 st)
             else if Rlt_dec x 0 then set (prefactor, - prefactor, -2 * prefactor * st_w st a * density * exu / st_cs2 st)
             else arrays))
      end.
    Definition wall_face (a f : nat) (u : point -> point) : outcome (list entry * list (nat * nat * R)) :=
      obind (wall_arrays a f u (List.seq 0 (n_face_points S)) (fun _ => (0, 0, 0))) (fun arrays =>
      match st_opp st a with
      | None => UB
      | Some b =>
          let on := List.filter (fun i => has_support_on_face S i f) (List.seq 0 n) in
          Ok (flat_map (fun i => let '(m, o, _) := arrays i in
                [((a - 1)%nat, (a - 1)%nat, dof_index S c i, dof_index S c i, m * inverse_mass i);
                 ((a - 1)%nat, (b - 1)%nat, dof_index S c i, dof_index S c i, o * inverse_mass i)]) on,
              map (fun i => let '(_, _, v) := arrays i in ((a - 1)%nat, dof_index S c i, v * inverse_mass i)) on)
      end).

    (** SEDGMinLee.cpp:360-412 assembleAndDistributeLocalFaceMatrices. *)
    Fixpoint face_entries (a : nat) (faces : list nat) : outcome (list entry * list (nat * nat * R)) :=
      match faces with
      | [] => Ok ([], [])
      | f :: r =>
          obind (match at_face S c f with
                 | Beyond c' f' => obind (internal_face a f c' f') (fun x => Ok (x, []))
                 | Outside b => match velocity b with Some u => wall_face a f u | None => Throw end
                 end) (fun x => obind (face_entries a r) (fun y => Ok (fst x ++ fst y, snd x ++ snd y)))
      end.
    (** SEDGMinLee.cpp:166-176: all directions but 0. *)
    Fixpoint cell_entries (dirs : list nat) : outcome (list entry * list (nat * nat * R)) :=
      match dirs with
      | [] => Ok ([], [])
      | a :: r => obind (face_entries a (List.seq 0 (faces_per_cell S))) (fun x => obind (cell_entries r) (fun y =>
          Ok (stiffness_entries a ++ fst x ++ fst y, snd x ++ snd y)))
      end.
  End Cell.

  (** The maps of setupDoFs (SEDGMinLee.cpp:76-79). *)
  Definition maps : outcome (list (nat * nat) * list (list (nat * nat))) :=
    obind map_celldofs_to_q_index (fun qmap =>
    obind (collect (fun f => obind (map_q_index_to_facedofs f) (fun m => Ok [m])) (List.seq 0 (faces_per_cell S))) (fun fm => Ok (qmap, fm))).

  (** SEDGMinLee.cpp:92-184 reassemble: entries are added to what the matrix and the vector hold. *)
  Definition system := (list entry * list (nat * nat * R))%type.
  Fixpoint assemble_cells (qmap : list (nat * nat)) (fmap : nat -> list (nat * nat)) (cells : list cell) : outcome system :=
    match cells with
    | [] => Ok ([], [])
    | c :: r => obind (cell_entries qmap fmap c (List.seq 1 (st_Q st - 1))) (fun x =>
                obind (assemble_cells qmap fmap r) (fun y => Ok (fst x ++ fst y, snd x ++ snd y)))
    end.
  Definition reassemble (cells : list cell) (s : system) : outcome system :=
    obind maps (fun m => obind (assemble_cells (fst m) (fun f => nth f (snd m) []) cells) (fun x =>
      Ok (fst s ++ fst x, snd s ++ snd x))).
  (** After setupDoFs matrix and vector are zero. *)
  Definition empty_system : system := ([], []).
End Assembly.

(** Value of the vector, and the right-hand side the time integrators use: block [a - 1] belongs to direction [a]. *)
Definition vector_value (v : list (nat * nat * R)) (a i : nat) : R :=
  fold_right (fun x acc => (let '(a', i', y) := x in if (Nat.eqb a a' && Nat.eqb i i')%bool then y else 0) + acc) 0 v.
Definition rate (s : system) (f : nat -> nat -> R) (a i : nat) : R :=
  apply_row (fst s) (fun b j => f (S b) j) (a - 1) i + vector_value (snd s) (a - 1) i.

(** SEDGMinLee.cpp:39-66, SEDGMinLee.h:205-215: the constructors; result: use of central fluxes and delta_t.
    The short one passes delta_t as use_central_flux and false as delta_t. *)
Definition sedg_constructor (gauss_lobatto : bool) (use_central_flux : bool) (delta_t : R) : outcome (bool * R) :=
  if Rle_dec 0 delta_t then if gauss_lobatto then Ok (use_central_flux, delta_t) else Throw else Throw.
Definition sedg_constructor_short (delta_t : R) : outcome (bool * R) :=
  sedg_constructor true (if Req_EM_T delta_t 0 then false else true) 0.
