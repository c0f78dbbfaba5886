(** Vocabulary for the collision objects used by the initialisation. *)
From Verif Require Import Prelude ModelStencils SpecStencils ModelConfigNames ModelEquilibria ModelCollision SpecCollision ModelOldCollision.
Local Open Scope R_scope.

(** The populations [f] hold density [rho] and velocity [u]. *)
Definition holds (st : stencil) (rho : R) (u f : nat -> R) : Prop :=
  mass st f = rho /\ forall a, (a < st_D st)%nat -> momentum st f a = rho * u a.

(** Two populations agree in every direction of the stencil. *)
Definition same_populations (st : stencil) (f f' : nat -> R) : Prop := forall i, (i < st_Q st)%nat -> f' i = f i.

(** Node [n] of [s'] is node [n] of [s]. *)
Definition untouched (s s' : fields) (n : nat) : Prop :=
  fl_f s' n = fl_f s n /\ fl_rho s' n = fl_rho s n /\ fl_u s' n = fl_u s n.

(** After a collision the stored density and velocity are those of the populations [f] before. *)
Definition stores_moments (st : stencil) (f : nat -> R) (rho : R) (u : nat -> R) : Prop :=
  rho = mass st f /\ forall a, (a < st_D st)%nat -> u a = momentum st f a / mass st f.

(** Setting several time steps one after the other. *)
Fixpoint set_steps (m : old_model) (dts : list R) : outcome old_model :=
  match dts with
  | [] => Ok m
  | dt :: rest => obind (setTimeStep m dt) (fun m' => set_steps m' rest)
  end.

(** Momentum flux of a fluid of kinematic viscosity [nu] with velocity gradient [grad], in the
    transformed variables of the lattice Boltzmann scheme with time step [dt]:
    - rho (nu + cs2 dt / 2) (d_b u_a + d_a u_b). *)
Definition viscous_flux (st : stencil) (nu dt rho : R) (grad : nat -> nat -> R) (a b : nat) : R :=
  - rho * (nu + st_cs2 st * dt / 2) * (grad a b + grad b a).

(** Classes that relax every population towards the equilibrium of the class; BGKSteadyState
    ignores forces. *)
Definition plain_bgk (c : old_class) (m : old_model) : Prop :=
  match c with
  | BGKStandard => om_forceType m = NO_FORCING
  | BGKSteadyState gamma => gamma <> 0
  | _ => False
  end.

(** Classes and stencils whose collision keeps mass and momentum: BGKStandard and the
    three-dimensional BGKRegularized without force; BGKStandardTransformed, MRTStandard and
    MRTEntropic on D2Q9. *)
Definition conserving (c : old_class) (m : old_model) : Prop :=
  match c with
  | BGKStandard => closed_form (om_t m) = true /\ om_forceType m = NO_FORCING
  | BGKSteadyState gamma => closed_form (om_t m) = true /\ gamma <> 0
  | BGKStandardTransformed | MRTStandard | MRTEntropic => om_t m = Stencil_D2Q9
  | BGKRegularized => om_t m = Stencil_D2Q9 \/ om_t m = Stencil_D3Q19 /\ om_forceType m = NO_FORCING
  | BGKIncompressible => False
  end.

(** BGKStandardTransformed stores populations minus those of density 1 at rest. *)
Definition density_of (c : old_class) (st : stencil) (f : nat -> R) : R :=
  match c with BGKStandardTransformed => mass st f + 1 | _ => mass st f end.

(** Classes and stencils for which the equilibrium of density [rho] is a fixed point. *)
Definition fixing (c : old_class) (m : old_model) (rho : R) : Prop :=
  match c with
  | BGKStandard => closed_form (om_t m) = true /\ om_forceType m = NO_FORCING
  | BGKSteadyState gamma => closed_form (om_t m) = true /\ gamma <> 0
  | BGKStandardTransformed | BGKRegularized => om_t m = Stencil_D2Q9
  | MRTStandard | MRTEntropic => om_t m = Stencil_D2Q9 /\ rho = 1
  | BGKIncompressible => False
  end.

(** classes whose initialisation step keeps the mass *)
Definition init_class (c : old_class) (m : old_model) : Prop :=
  plain_bgk c m \/ c = BGKRegularized /\ om_t m = Stencil_D2Q9.

Definition new_equilibrium (c : old_class) : T_equilibrium :=
  match c with BGKSteadyState _ => SteadyStateEquilibrium | _ => BGKEquilibrium end.

(** the configuration selects the equilibrium of the class *)
Definition same_equilibrium (c : old_class) (cfg : collision_config) : Prop :=
  match c with
  | BGKSteadyState gamma => cc_equilibrium cfg = STEADYSTATE_EQUILIBRIUM /\ cc_ss_gamma cfg = gamma
  | _ => cc_equilibrium cfg <> STEADYSTATE_EQUILIBRIUM
  end.

(** Which classes use the force, for which stencils. *)
Definition uses_force (c : old_class) (t : StencilType) : bool :=
  match c, t with
  | BGKStandard, (Stencil_D2Q9 | Stencil_D3Q19) => true
  | BGKRegularized, Stencil_D3Q19 => true
  | _, _ => false
  end.
