(** Specification of the pseudo-potential collision. *)
From Verif Require Import Prelude ModelStencils SpecCollision ModelCollision.
Local Open Scope R_scope.

(** The pseudo-potentials of Shan and Chen, of Sukop and Thorne, and of an equation of state. *)
Definition psi_shan_chen (rho : R) : R := 1 - exp (- rho).
Definition psi_sukop (rho : R) : R := 4 * exp (- rho / 200).
(** Carnahan and Starling: pressure p(rho) of temperature T (a = b/4 = 1). *)
Definition pressure_CS (T rho : R) : R := rho * T * (1 + rho + rho ^ 2 - rho ^ 3) / (1 - rho) ^ 3 - rho ^ 2.
Definition psi_CS (G T cs2 rho : R) : R := sqrt (2 * (pressure_CS T rho - cs2 * rho) / G).

(** The interaction force is - G psi grad psi: along every line through the point, with [rho] the density on it, its
    component is -G psi(rho) times the derivative of psi(rho(x)). *)
Definition interaction (G : R) (psi : R -> R) (rho : R -> R) (x F : R) : Prop :=
  exists d, derivable_pt_lim (fun y => psi (rho y)) x d /\ F = - G * psi (rho x) * d.

(** A force [F] acts on the populations [f] of a node during [dt]: the mass stays, the momentum changes by dt F, and the
    velocity that is stored is the one in the middle of the step. *)
Definition acts (st : stencil) (dt : R) (F : nat -> R) (f f' u' : nat -> R) : Prop :=
  mass st f' = mass st f /\
  (forall a, (a < st_D st)%nat -> momentum st f' a = momentum st f a + dt * F a) /\
  (forall a, (a < st_D st)%nat -> u' a = (momentum st f a + dt / 2 * F a) / mass st f).
