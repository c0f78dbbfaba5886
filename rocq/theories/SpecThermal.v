(** Specification vocabulary for boundary conditions with a temperature. *)
From Verif Require Import Prelude ModelStencils SpecCollision.
Local Open Scope R_scope.

(** Velocity of a node, and its temperature (relative to the reference temperature of the stencil): the energy that
    is not kinetic, divided by the heat capacity. *)
Definition node_flow (st : stencil) (f : nat -> R) : nat -> R := fun a => momentum st f a / mass st f.
Definition node_temperature (gamma : R) (st : stencil) (f g : nat -> R) : R :=
  (energy2 st f g - mass st f * dot (st_D st) (node_flow st f) (node_flow st f)) * (gamma - 1) / (2 * mass st f * st_cs2 st).
