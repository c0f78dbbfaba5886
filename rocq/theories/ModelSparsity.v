(** Model of the sparsity pattern of the discontinuous Galerkin operator: SEDGMinLee.cpp:186-318 updateSparsityPattern,
    utilities/DealiiExtensions.cpp:49-362 make_sparser_flux_sparsity_pattern with fe_face (called with it only),
    boundaries/BoundaryTools.cpp:162-231 CoupleDoFsAtBoundary, boundaries/PeriodicBoundary.cpp:90-109 isFaceInBoundary.
    A pattern is the list of the positions added to it.  One process owns all cells, no cell is refined further than
    another, cell maps have been created; the debug assertions on the number of dofs per face are left out. *)
From Verif Require Import Prelude ModelStencils ModelSemiLagrangian ModelSEDG.
Local Open Scope R_scope.

(** What deal.II knows of a face: the neighbour and its face number, or the boundary id. *)
Inductive face_of (cell : Type) := Shared (c : cell) (f : nat) | AtBoundary (id : nat).
Arguments Shared {cell}. Arguments AtBoundary {cell}.
(** PeriodicBoundary: the two boundary ids; getOppositeCellAtPeriodicBoundary (PeriodicBoundary.cpp:150-178). *)
Record periodic (cell : Type) := mkPeriodic { pb_1 : nat; pb_2 : nat; pb_opposite : cell -> outcome (cell * nat) }.
Arguments pb_1 {cell}. Arguments pb_2 {cell}. Arguments pb_opposite {cell}. Arguments mkPeriodic {cell}.
(** The mesh and the BoundaryCollection: m_periodicBoundaries (by id) and the other boundaries (id, isDGSupported). *)
Record mesh (cell : Type) := mkMesh { me_face : cell -> nat -> face_of cell; me_periodic : list (nat * periodic cell); me_walls : list (nat * bool) }.
Arguments me_face {cell}. Arguments me_periodic {cell}. Arguments me_walls {cell}. Arguments mkMesh {cell}.

Section Pattern.
  Context {cell : Type} (S : space cell) (m : mesh cell).
  Let n := dofs_per_cell S.

  (** SEDGMinLee.cpp:366-408: what the assembly takes to be behind a face (isPeriodic, getPeriodicBoundary). *)
  Definition find_periodic (id : nat) : option (periodic cell) := option_map snd (List.find (fun e => Nat.eqb (fst e) id) (me_periodic m)).
  Definition assembled_side (c : cell) (f : nat) : outcome (side cell) :=
    match me_face m c f with
    | Shared c' f' => Ok (Beyond c' f')
    | AtBoundary id => match find_periodic id with
                       | Some p => obind (pb_opposite p c) (fun x => Ok (Beyond (fst x) (snd x)))
                       | None => Ok (Outside id)
                       end
    end.

  (** PeriodicBoundary.cpp:90-109: the second argument is the number of a face; cell->face(k) beyond the last face. *)
  Definition isFaceInBoundary (p : periodic cell) (c : cell) (k : nat) : outcome bool :=
    if Nat.ltb k (faces_per_cell S) then
      Ok (match me_face m c k with AtBoundary id => (Nat.eqb id (pb_1 p) || Nat.eqb id (pb_2 p))%bool | Shared _ _ => false end)
    else UB.
  (** DealiiExtensions.cpp:117-150: the first periodic boundary with isFaceInBoundary(cell, this_face->boundary_id()). *)
  Fixpoint search (c : cell) (id : nat) (l : list (nat * periodic cell)) : outcome (option (cell * nat)) :=
    match l with
    | [] => Ok None
    | e :: r => obind (isFaceInBoundary (snd e) c id) (fun b =>
                if b then obind (pb_opposite (snd e) c) (fun x => Ok (Some x)) else search c id r)
    end.
  (** DealiiExtensions.cpp:116-155, 246-258: neighbour and its face number; None: [continue]. *)
  Definition pattern_side (c : cell) (f : nat) : outcome (option (cell * nat)) :=
    match me_face m c f with
    | Shared c' f' => Ok (Some (c', f'))
    | AtBoundary id => search c id (me_periodic m)
    end.
  (** DealiiExtensions.cpp:282-294, 297-309: the degrees of freedom of a face in the order of their numbers. *)
  Definition face_dofs (f : nat) : outcome (list nat) :=
    collect (fun i => match List.filter (fun q => if Rlt_dec (1 / 10 ^ 10) (face_shape_value S f i q) then true else false) (List.seq 0 (n_face_points S)) with
                      | [] => Ok [] | [_] => Ok [i] | _ => Throw end) (List.seq 0 n).
  (** DealiiExtensions.cpp:321-331: vector::at throws. *)
  Definition face_pattern (c : cell) (f : nat) : outcome (list (nat * nat)) :=
    obind (pattern_side c f) (fun o =>
    match o with
    | None => Ok []
    | Some (c', f') => obind (face_dofs f) (fun l => obind (face_dofs f') (fun l' =>
        if Nat.leb (length l) (length l') then Ok (combine (map (dof_index S c) l) (map (dof_index S c') l')) else Throw))
    end).
  (** DealiiExtensions.cpp:90-108: all pairs of the cell, then the faces. *)
  Definition cell_pattern (c : cell) : outcome (list (nat * nat)) :=
    obind (collect (face_pattern c) (List.seq 0 (faces_per_cell S))) (fun l =>
    Ok (list_prod (map (dof_index S c) (List.seq 0 n)) (map (dof_index S c) (List.seq 0 n)) ++ l)).
  Definition sparser_pattern (cells : list cell) : outcome (list (nat * nat)) := collect cell_pattern cells.

  (** BoundaryTools.cpp:162-231 with COUPLE_ONLY_SINGLE_POINTS (VelocityNeqBounceBack.h:110-124). *)
  Definition couple_wall (b : nat) (cells : list cell) : list (nat * nat) :=
    flat_map (fun c => flat_map (fun f => match me_face m c f with
      | AtBoundary id => if Nat.eqb id b then map (fun i => (dof_index S c i, dof_index S c i)) (List.filter (fun i => has_support_on_face S i f) (List.seq 0 n)) else []
      | Shared _ _ => [] end) (List.seq 0 (faces_per_cell S))) cells.
  (** SEDGMinLee.cpp:245-264 (the one supported boundary couples opposite distributions only). *)
  Definition wall_pattern (cells : list cell) : outcome (list (nat * nat)) :=
    collect (fun w : nat * bool => if snd w then Ok (couple_wall (fst w) cells) else Throw) (me_walls m).

  (** SEDGMinLee.cpp:280-318: the pattern of block (I, J), of Q - 1 times Q - 1 blocks. *)
  Definition update_pattern (st : stencil) (cells : list cell) : outcome (nat -> nat -> list (nat * nat)) :=
    obind (sparser_pattern cells) (fun diag => obind (wall_pattern cells) (fun opposite =>
    match st_opp st 1 with
    | None => UB
    | Some o =>
        if Nat.leb o (st_Q st - 1) then if Nat.eqb o 1 then Throw else
        if Nat.ltb o (st_Q st - 1) then
          Ok (fun I J =>
            if (Nat.eqb I 0 && Nat.eqb J 0)%bool then diag
            else if (Nat.eqb I 0 && Nat.eqb J o)%bool then []
            else if (Nat.eqb I 0 && Nat.eqb (J + 1) o)%bool then opposite
            else if Nat.eqb I J then diag
            else match st_opp st (J + 1) with
                 | Some b => if Nat.eqb (I + 1) b then opposite else []
                 | None => []
                 end)
        else UB else Throw
    end)).
End Pattern.
