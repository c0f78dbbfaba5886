(** Vocabulary for whole simulations: contents of the domain. *)
From Verif Require Import Prelude ModelStencils ModelSemiLagrangian ModelSEDG SpecSEDG.
Local Open Scope R_scope.

(** Integral over the domain of a field given at the degrees of freedom. *)
Definition content {cell} (S : space cell) (qn : nat -> nat) (cells : list cell) (g : nat -> R) : R :=
  total cells (fun c => sumf (dofs_per_cell S) (fun i => volume S qn c i * g (dof_index S c i))).
(** The degrees of freedom are numbered from 0 to [N - 1]. *)
Definition numbers {cell} (S : space cell) (cells : list cell) (N : nat) : Prop :=
  (forall c i, In c cells -> (i < dofs_per_cell S)%nat -> (dof_index S c i < N)%nat) /\
  (forall n, (n < N)%nat -> exists c i, In c cells /\ (i < dofs_per_cell S)%nat /\ dof_index S c i = n).
From Verif Require Import ModelConfigNames ModelEquilibria ModelCollision SpecSetup.
(** No external force, or one with a scheme that exists. *)
Definition force_handled (cfg : collision_config) (force : option (nat -> R)) : Prop :=
  match force with
  | None => True
  | Some _ => cc_equilibrium cfg <> STEADYSTATE_EQUILIBRIUM /\ (cc_forcing cfg = SHIFTING_VELOCITY \/ cc_forcing cfg = EXACT_DIFFERENCE)
  end.
(** Momentum per volume added by one collision. *)
Definition kick (k : T_collision) (cfg : collision_config) (tau dt : R) (force : option (nat -> R)) (a : nat) : R :=
  match force with
  | None => 0
  | Some F => match cc_forcing cfg with EXACT_DIFFERENCE => dt * F a | _ => shift_factor k cfg tau * dt * F a end
  end.
