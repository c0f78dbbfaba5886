(** Specification vocabulary for collisions: hydrodynamic moments of a population
    vector with respect to the (physical, scaled) directions of a stencil. *)
From Verif Require Import Prelude ModelStencils.
Open Scope R_scope.

Definition mass (st : stencil) (f : nat -> R) : R := sumf (st_Q st) f.
Definition momentum (st : stencil) (f : nat -> R) (a : nat) : R :=
  sumf (st_Q st) (fun i => f i * st_e st i a).
Definition moment2 (st : stencil) (f : nat -> R) (a b : nat) : R :=
  sumf (st_Q st) (fun i => f i * st_e st i a * st_e st i b).
Definition moment3 (st : stencil) (f : nat -> R) (a b c : nat) : R :=
  sumf (st_Q st) (fun i => f i * st_e st i a * st_e st i b * st_e st i c).

(** Twice the total energy carried by the two populations of the compressible
    model: translational part of f plus the internal part stored in g. *)
Definition energy2 (st : stencil) (f g : nat -> R) : R :=
  sumf (st_Q st) (fun i => dot (st_D st) (st_e st i) (st_e st i) * f i + st_cs2 st * g i).

(** [f'] carries the mass of [f] and its momentum changed by [dj]. *)
Definition changes_momentum_by (st : stencil) (f f' : nat -> R) (dj : nat -> R) : Prop :=
  mass st f' = mass st f /\
  forall a, (a < st_D st)%nat -> momentum st f' a = momentum st f a + dj a.

(** Same, for an exactly conserving step. *)
Definition conserves (st : stencil) (f f' : nat -> R) : Prop :=
  mass st f' = mass st f /\ forall a, (a < st_D st)%nat -> momentum st f' a = momentum st f a.

(** Non-equilibrium part of the momentum flux, relative to rho (cs^2 delta + v v)
    with v = momentum / mass. *)
Definition stress (st : stencil) (f : nat -> R) (a b : nat) : R :=
  moment2 st f a b - (mass st f * st_cs2 st * delta a b + momentum st f a * momentum st f b / mass st f).

(** Dellar's ghost moments of a D2Q9 distribution: N = sum g_i f_i with
    g = (1,-2,-2,-2,-2,4,4,4,4), and J = sum g_i e_i f_i. *)
Definition ghost_g (i : nat) : R := nth i [1; -2; -2; -2; -2; 4; 4; 4; 4] 0.
Definition ghost_N (f : nat -> R) : R := sumf 9 (fun i => ghost_g i * f i).
Definition ghost_J (f : nat -> R) (a : nat) : R := sumf 9 (fun i => ghost_g i * st_e (D2Q9 1) i a * f i).
