(** Which classes a configured collision scheme and equilibrium scheme name. *)
From Verif Require Import Prelude ModelStencils ModelConfigNames ModelEquilibria ModelCollision.

Definition named_collision (c : CollisionSchemeName) : option T_collision :=
  match c with
  | BGK_STANDARD => Some BGKCollision
  | BGK_REGULARIZED => Some Regularized
  | MRT_STANDARD => Some MultipleRelaxationTime
  | _ => None
  end.
Definition named_equilibrium (q : EquilibriumSchemeName) : option T_equilibrium :=
  match q with
  | BGK_EQUILIBRIUM => Some BGKEquilibrium
  | QUARTIC_EQUILIBRIUM => Some QuarticEquilibrium
  | INCOMPRESSIBLE_EQUILIBRIUM => Some IncompressibleEquilibrium
  | STEADYSTATE_EQUILIBRIUM => Some SteadyStateEquilibrium
  | ENTROPIC_EQUILIBRIUM => Some EntropicEquilibrium
  end.

(** The combinations for which the solver silently runs something else. *)
Definition mismatch (compressible : bool) (st : StencilType) (c : CollisionSchemeName) (q : EquilibriumSchemeName) : Prop :=
  (compressible = false /\ (st = Stencil_D3Q45 \/ st = Stencil_D3Q77) /\ c = BGK_STANDARD /\ q = QUARTIC_EQUILIBRIUM) \/
  (compressible = true /\ st = Stencil_D2Q25H /\ c = BGK_REGULARIZED /\ q = BGK_EQUILIBRIUM).

