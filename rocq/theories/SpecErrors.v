(** Vocabulary for benchmark runs and their error statistics. *)
From Verif Require Import Prelude ModelRun ModelErrors.
Local Open Scope R_scope.

(** The part of a benchmark run that every run has, and the iterations with a line in the error table. *)
Definition run_part {D} (tr : list (bench_event D)) : list (event D) :=
  flat_map (fun e => match e with BRun e => [e] | BError _ => [] end) tr.
Definition error_lines {D} (tr : list (bench_event D)) : list nat :=
  flat_map (fun e => match e with BRun _ => [] | BError i => [i] end) tr.

(** Iterations for which a solution file is written. *)
Definition solutions_of {D} (tr : list (event D)) : list nat :=
  flat_map (fun e => match e with EvSolution i => [i] | _ => [] end) tr.

(** [m] is the largest of the (non-negative) values of [g] on the list, 0 on the empty list. *)
Definition largest {A} (l : list A) (g : A -> R) (m : R) :=
  (forall x, In x l -> g x <= m) /\ ((l = [] /\ m = 0) \/ exists x, In x l /\ m = g x).

(** Euclidean distance of two vectors with [dim] components. *)
Definition distance (dim : nat) (a b : nat -> R) : R := sqrt (sumf dim (fun j => (a j - b j) ^ 2)).

(** Integral of a function over the domain with the quadrature of the cells. *)
Definition quadrature {P} (cells : list (list (qpoint P))) (g : qpoint P -> R) : R :=
  fold_right (fun q s => qp_w q * g q + s) 0 (concat cells).

(** The error as documented in ErrorStats.h:107-111: the root of the sum of squares over the degrees of freedom. *)
Definition documented_error (dofs : list nat) (num ref : nat -> R) : R :=
  sqrt (fold_right (fun i s => (num i - ref i) ^ 2 + s) 0 dofs).

(** What the title of a column of the error table promises about the number below it. *)
Definition promised_error {P} (v : view P) (c : error_column) (x : R) : Prop :=
  match c with
  | ColIteration => False
  | ColTime => x = vw_time v
  | ColMaxAnalytic => largest (concat (vw_ranks v)) (fun i => distance (vw_dim v) (vw_ana_u v (vw_time v) (vw_support v i)) (fun _ => 0)) x
  | ColMaxErrorU => largest (concat (vw_ranks v))
      (fun i => distance (vw_dim v) (fun j => vw_num_u v j i) (vw_ana_u v (vw_time v) (vw_support v i))) x
  | ColMaxErrorRho => largest (concat (vw_ranks v)) (fun i => Rabs (vw_num_rho v i - vw_ana_rho v (vw_time v) (vw_support v i))) x
  | ColL2ErrorU => x = sqrt (quadrature (concat (vw_cells v)) (fun q => distance (vw_dim v) (qp_u q) (vw_ana_u v (vw_time v) (qp_x q)) ^ 2))
  | ColL2ErrorRho => x = sqrt (quadrature (concat (vw_cells v)) (fun q => (qp_rho q - vw_ana_rho v (vw_time v) (qp_x q)) ^ 2))
  end.
