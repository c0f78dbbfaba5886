(** Specification vocabulary for a run: what the outside world sees of it. *)
From Verif Require Import Prelude ModelConfigNames ModelRun.
Open Scope R_scope.

(** Collision steps, streaming steps and reports, in order. *)
Inductive step := Collide (i : nat) | Stream (i : nat) | Report (i : nat) (final : bool).

Definition step_of {D} (e : event D) : list step :=
  match e with
  | EvCollide i => [Collide i]
  | EvStream i _ => [Stream i]
  | EvOutput i final => [Report i final]
  | _ => []
  end.
Definition steps_of {D} (tr : list (event D)) : list step := flat_map step_of tr.

(** A run from iteration [a] to iteration [b]. *)
Definition expected_steps (a b : nat) : list step :=
  Collide a :: flat_map (fun i => [Report i false; Stream i; Collide (S i)]) (seq a (b - a)) ++ [Report b true].

Definition reports_of {D} (tr : list (event D)) : list (nat * bool) :=
  flat_map (fun e => match e with EvOutput i final => [(i, final)] | _ => [] end) tr.
Definition streamings {D} (tr : list (event D)) : nat :=
  length (flat_map (fun e => match e with EvStream i _ => [i] | _ => [] end) tr).
Definition collisions {D} (tr : list (event D)) : nat :=
  length (flat_map (fun e => match e with EvCollide i => [i] | _ => [] end) tr).

(** Iteration numbers of the checkpoints written, in order. *)
Definition checkpoints_of {D} (tr : list (event D)) : list nat :=
  flat_map (fun e => match e with EvCheckpoint i _ _ => [i] | _ => [] end) tr.

(** The checkpoint schedule of a run from [a] to [b]. *)
Definition checkpoint_due (c : run_config) (a b i : nat) : Prop :=
  (Nat.modulo i (rc_checkpoint_interval c) = 0%nat \/ i = b) /\ INR (rc_checkpoint_interval c) <= 10^8 /\ i <> a /\
  (rc_output_off c = false \/ rc_compressible c = true).

(** Intervals accepted by the configuration (patterns Integer(1)). *)
Definition valid_intervals (c : run_config) : Prop :=
  (1 <= rc_solution_interval c)%nat /\ (1 <= rc_table_interval c)%nat /\
  (1 <= rc_checkpoint_interval c)%nat /\ (1 <= rc_filter_interval c)%nat.

(** Evaluations of the convergence criterion: iteration, velocity field, reported residual. *)
Definition residuals_of {D} (tr : list (event D)) : list (nat * (nat -> nat -> R) * R) :=
  flat_map (fun e => match e with EvResidual i u r => [(i, u, r)] | _ => [] end) tr.

(** [r] is the largest Euclidean distance of [u] and [v] over the nodes. *)
Definition max_distance (nodes : list nat) (d : nat) (u v : nat -> nat -> R) (r : R) : Prop :=
  (forall n, In n nodes -> sqrt (sumf d (fun a => (u n a - v n a)^2)) <= r) /\
  (exists n, In n nodes /\ r = sqrt (sumf d (fun a => (u n a - v n a)^2))).

(** Consecutive pairs of a list. *)
Inductive consecutive {A} : list A -> A -> A -> Prop :=
| cons_here x y l : consecutive (x :: y :: l) x y
| cons_later x y z l : consecutive l x y -> consecutive (z :: l) x y.

(** ** What a run computes, written down without the loop *)
Section Evolve.
  Context {X D : Type}.
  Variables (c : run_config) (o : solver_ops X D).

  (** The filter is due in iteration [i]. *)
  Definition filtered (i : nat) (x : X) : X :=
    if (rc_filtering c && Nat.eqb (i mod rc_filter_interval c) 0)%bool then so_filter o x else x.

  (** Advection over one step from time [t]. *)
  Definition advected (t dt : R) (x : X) : X :=
    if rc_semi_lagrangian c then so_advect o t x else fst (so_integrate o dt x).

  (** [k] iterations from iteration [i] at time [t] with constant step [dt]: advect, filter, collide, post-process. *)
  Fixpoint evolve (k i : nat) (t dt : R) (x : X) : outcome X :=
    match k with
    | O => Ok x
    | S k' => obind (so_collide o (filtered (S i) (advected t dt x))) (fun y =>
              evolve k' (S i) (t + dt) dt (fold_left (fun x p => p x) (so_processors o) y))
    end.
End Evolve.

(** The step size does not change during the run. *)
Definition constant_step {X D} (c : run_config) (o : solver_ops X D) : Prop :=
  rc_semi_lagrangian c = true \/ forall dt x, snd (so_integrate o dt x) = dt.

(** ** The iterative initialisation, written down without the loop *)
Section Init.
  Context {X D : Type}.
  Variables (c : run_config) (o : solver_ops X D).

  (** The solver after [k] stream-and-collide passes. *)
  Fixpoint init_states (k : nat) (s : solver X) : solver X :=
    match k with O => s | S k' => init_step c o (init_states k' s) end.

  (** The residual after [k] passes: squared norm of the change of the density in the last pass. *)
  Definition init_residual (k : nat) (s : solver X) : R :=
    match k with
    | O => 1000000000
    | S k' => norm_sqr (so_nodes o) (fun n => so_density o (sv_x (init_states k' s)) n - so_density o (sv_x (init_states k s)) n)
    end.
End Init.

(** What the time loop calls keeps a property of the vectors. *)
Definition keeps {X D} (o : solver_ops X D) (P : X -> Prop) : Prop :=
  (forall x, P x -> exists y, so_collide o x = Ok y /\ P y) /\
  (forall t x, P x -> P (so_advect o t x)) /\ (forall dt x, P x -> P (fst (so_integrate o dt x))) /\
  (forall x, P x -> P (so_filter o x)) /\ (forall p x, In p (so_processors o) -> P x -> P (p x)).
