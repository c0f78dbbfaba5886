(** Specification vocabulary: physically meaningful parameters of a run, and which
    equilibria are meant to carry density and momentum. *)
From Verif Require Import Prelude ModelStencils ModelConfigNames ModelEquilibria ModelCollision SpecCollision.
Open Scope R_scope.

(** Positive scaling, viscosity, time step and preconditioning parameter. *)
Definition valid_setup (cfg : collision_config) (s viscosity dt : R) : Prop :=
  0 < s /\ 0 < viscosity /\ 0 < dt /\ 0 < cc_ss_gamma cfg.

(** The node is not rejected by the density check (1e-10). *)
Definition dense (st : stencil) (f : nat -> R) : Prop := 1 / 10^10 <= mass st f.

(** Equilibria with moments rho and rho u. *)
Definition carries_momentum (q : T_equilibrium) : bool :=
  match q with
  | BGKEquilibrium | QuarticEquilibrium | SteadyStateEquilibrium => true
  | IncompressibleEquilibrium | EntropicEquilibrium => false
  end.

(** The equilibrium populations of class [q] for density [rho] and physical velocity [v]
    at temperature [T], as computed by the solver for stencil [st] with scaling [s]. *)
Definition equilibrium_populations (q : T_equilibrium) (cfg : collision_config) (st : stencil) (s : R)
    (rho : R) (v : nat -> R) (T : R) (f : nat -> R) : Prop :=
  exists g, eq_calc q (unscale st s) (match cc_equilibrium cfg with STEADYSTATE_EQUILIBRIUM => cc_ss_gamma cfg | _ => 1 end)
              rho (fun a => v a / s) T = Ok g /\
            forall i, (i < st_Q st)%nat -> f i = g i.

(** Combinations of stencil, moment basis and relaxation mode for which the MRT
    collision is defined; the other collisions have no such restriction. *)
Definition mrt_accepts (t : StencilType) (basis : MomentBasis) (mode : RelaxMode) : bool :=
  match t, basis, mode with
  | Stencil_D2Q9, DELLAR_D2Q9, RELAX_FULL | Stencil_D2Q9, DELLAR_D2Q9, DELLAR_RELAX_ONLY_N
  | Stencil_D2Q9, LALLEMAND_D2Q9, RELAX_FULL
  | Stencil_D3Q19, DHUMIERES_D3Q19, RELAX_FULL | Stencil_D3Q19, DHUMIERES_D3Q19, RELAX_DHUMIERES_PAPER => true
  | _, _, _ => false
  end.
Definition runs_on (k : T_collision) (t : StencilType) (cfg : collision_config) : bool :=
  match k with
  | MultipleRelaxationTime => mrt_accepts t (cc_mrt_basis cfg) (cc_mrt_relax cfg)
  | _ => true
  end.

(** Momentum added per dt F by the shifting-velocity forcing, for each collision scheme. *)
Definition shift_factor (k : T_collision) (cfg : collision_config) (tau : R) : R :=
  match k with
  | BGKCollision => 1
  | Regularized => tau
  | MultipleRelaxationTime => match cc_mrt_relax cfg with RELAX_DHUMIERES_PAPER => 0 | _ => 1 end
  end.
