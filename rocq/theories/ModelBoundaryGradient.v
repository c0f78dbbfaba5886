(** Gradients at boundaries that are continuous over cells, as compiled (NO_SUPPORT_HP_PARALLEL is always defined,
    utilities/ContinuousBoundaryGradient.h:30).  Reals for doubles; one process. *)
From Verif Require Import Prelude.
Local Open Scope R_scope.

(** Assertions are active in debug builds only. *)
Inductive build := Debug | Release.
Definition check {A} (b : build) (cond : bool) (k : outcome A) : outcome A := match b with Debug => if cond then k else Throw | Release => k end.

(** A cell: owned by the process, boundary ids of its faces, indices of its unknowns. *)
Record gcell := { owned : bool; face_ids : list nat; dofs : list nat }.

(** deal.II, DoFCellAccessor::active_fe_index of a DoFHandler without hp: always 0. *)
Definition active_fe_index (c : gcell) : nat := 0.

(** A solution by its gradients: cell, face, quadrature point, component (FEFaceValues::get_function_gradients). *)
Definition gsolution := nat -> nat -> nat -> nat -> R.

(** Null pointers before reinit are [None]; [face_values]: m_feFaceValues is not null; [face_dofs]: unknowns of the
    face chosen last ([None]: none since calculateGradients). *)
Record cbg := { discontinuous : option (nat -> R); continuous : option (nat -> R); face_values : bool; face_dofs : option (list nat) }.
Definition cbg_new : cbg := {| discontinuous := None; continuous := None; face_values := false; face_dofs := None |}.

(** ContinuousBoundaryGradient.cpp:45-49: destructor. *)
Definition cbg_destroy (s : cbg) : outcome unit := match discontinuous s, continuous s with Some _, Some _ => Ok tt | _, _ => UB end.

(** ContinuousBoundaryGradient.cpp:51-119: reinit; new Trilinos vectors are zero. *)
Definition cbg_reinit (s : cbg) : cbg := {| discontinuous := Some (fun _ => 0); continuous := Some (fun _ => 0); face_values := face_values s; face_dofs := face_dofs s |}.

(** ContinuousBoundaryGradient.cpp:173-213: assignments on one face; the element is scalar: component 0, index i.
    The search for the quadrature point (lines 196-208) has no effect but its assertions, which are left out. *)
Definition put (k : nat) (x : R) (D : nat -> R) : nat -> R := fun k' => if Nat.eqb k' k then x else D k'.
Fixpoint face_loop (n_q : nat) (g : nat -> nat -> R) (i : nat) (ds : list nat) (D : nat -> R) : outcome (nat -> R) :=
  match ds with
  | [] => Ok D
  | k :: l => if Nat.ltb i n_q then face_loop n_q g (S i) l (put k (g i 0%nat) D) else Throw
  end.
Fixpoint faces_loop (ids : list nat) (n_q : nat) (g : nat -> nat -> nat -> R) (f : nat) (fs : list nat) (ds : list nat) (D : nat -> R) : outcome (nat -> R) :=
  match fs with
  | [] => Ok D
  | b :: l => if existsb (Nat.eqb b) ids then faces_loop ids n_q g (S f) l ds D
              else match face_loop n_q (g f) 0 ds D with Ok D' => faces_loop ids n_q g (S f) l ds D' | Throw => Throw | UB => UB end
  end.

(** ContinuousBoundaryGradient.cpp:154-214: loop over the cells. *)
Fixpoint cells_loop (ids : list nat) (n_q : nat) (sol : gsolution) (n : nat) (cells : list gcell) (D : nat -> R) : outcome (nat -> R) :=
  match cells with
  | [] => Ok D
  | c :: l => if negb (owned c) then cells_loop ids n_q sol (S n) l D
              else if Nat.eqb (active_fe_index c) 0 then cells_loop ids n_q sol (S n) l D
              else match faces_loop ids n_q (sol n) 0 (face_ids c) (dofs c) D with Ok D' => cells_loop ids n_q sol (S n) l D' | Throw => Throw | UB => UB end
  end.

(** ContinuousBoundaryGradient.cpp:121-246: calculateGradients.  The projection (lines 215-230) is commented out.  get_fe()[1]
    (line 245): deal.II asserts index 0. *)
Definition cbg_calculate (b : build) (ids : list nat) (n_q : nat) (cells : list gcell) (sol : gsolution) (s : cbg) : outcome cbg :=
  match discontinuous s, continuous s with
  | Some D, Some C =>
      match cells_loop ids n_q sol 0 cells D with
      | Ok D' => check b (Nat.eqb 1 0) (Ok {| discontinuous := Some D'; continuous := Some C; face_values := true; face_dofs := None |})
      | Throw => Throw
      | UB => UB
      end
  | _, _ => UB
  end.

(** ContinuousBoundaryGradient.h:123-131: face_reinit. *)
Definition cbg_face (b : build) (c : gcell) (f : nat) (s : cbg) : outcome cbg :=
  check b (owned c) (check b (Nat.ltb f (length (face_ids c))) (check b (Nat.eqb (active_fe_index c) 1)
    (if face_values s then Ok {| discontinuous := discontinuous s; continuous := continuous s; face_values := true; face_dofs := Some (dofs c) |} else UB))).

(** ContinuousBoundaryGradient.cpp:248-287: get_gradient_component; [shape i q]: values of the continuous element on the
    face. *)
Fixpoint component_loop (b : build) (shape : nat -> nat -> R) (q component : nat) (C : nat -> R) (i : nat) (ds : list nat) : outcome R :=
  match ds with
  | [] => check b false (Ok 0)
  | k :: l => if negb (Nat.eqb component 0) then component_loop b shape q component C (S i) l
              else if Rlt_dec (1 / 10 ^ 20) (shape i q) then
                check b (if Req_EM_T (shape i q) 1 then true else false) (Ok (C k))
              else component_loop b shape q component C (S i) l
  end.
Definition cbg_component (b : build) (shape : nat -> nat -> R) (q component : nat) (s : cbg) : outcome R :=
  match continuous s, face_dofs s with Some C, Some ds => component_loop b shape q component C 0 ds | _, _ => UB end.
