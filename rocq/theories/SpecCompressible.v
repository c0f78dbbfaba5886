(** Vocabulary for the compressible solver. *)
From Verif Require Import Prelude ModelStencils ModelCompressible SpecCollision SpecStencils.
Local Open Scope R_scope.

(** Twice the energy per volume of a gas with density rho, velocity u and temperature T (in units of the temperature of the stencil):
    rho |u|^2 + 2 rho c_v T with c_v = cs^2 / (gamma - 1). *)
Definition gas_energy2 (st : stencil) (gamma rho : R) (u : nat -> R) (T : R) : R :=
  rho * dot (st_D st) u u + 2 * rho * (st_cs2 st / (gamma - 1)) * T.
(** The populations [f], [g] carry density, velocity and temperature [rho], [u], [T]. *)
Definition carries (st : stencil) (gamma : R) (f g : nat -> R) (rho : R) (u : nat -> R) (T : R) : Prop :=
  mass st f = rho /\ (forall a, (a < st_D st)%nat -> momentum st f a = rho * u a) /\ energy2 st f g = gas_energy2 st gamma rho u T.
(** Velocity of the populations [f] and the temperature of their random motion: D rho cs^2 T = sum_i |e_i - u|^2 f_i. *)
Definition bulk (st : stencil) (f : nat -> R) (a : nat) : R := momentum st f a / mass st f.
Definition random_motion (st : stencil) (f : nat -> R) : R :=
  sumf (st_Q st) (fun i => dot (st_D st) (fun a => st_e st i a - bulk st f a) (fun a => st_e st i a - bulk st f a) * f i) / (INR (st_D st) * mass st f * st_cs2 st).
