(** Vocabulary for the entropic collision classes and the pseudo-entropic stabilizer. *)
From Verif Require Import Prelude ModelStencils SpecStencils SpecCollision ModelConfigNames ModelEquilibria ModelCollision ModelOldCollision SpecOldCollision ModelEntropic.
Local Open Scope R_scope.

(** Squared distance of the populations [f] to the equilibrium [feq]: second-order expansion of
    the relative entropy. *)
Definition distance (st : stencil) (feq f : nat -> R) : R :=
  sumf (st_Q st) (fun i => (f i - feq i) * (f i - feq i) / feq i).

(** [d] carries no mass, momentum or momentum flux. *)
Definition no_moments (st : stencil) (d : nat -> R) : Prop :=
  mass st d = 0 /\ (forall a, (a < st_D st)%nat -> momentum st d a = 0) /\
  forall a b, (a < st_D st)%nat -> (b < st_D st)%nat -> moment2 st d a b = 0.

(** Two populations agree in mass, momentum and momentum flux. *)
Definition same_moments (st : stencil) (f f' : nat -> R) : Prop :=
  mass st f' = mass st f /\ (forall a, (a < st_D st)%nat -> momentum st f' a = momentum st f a) /\
  forall a b, (a < st_D st)%nat -> (b < st_D st)%nat -> moment2 st f' a b = moment2 st f a b.

(** BGK collision towards [feq] with relaxation parameter [tau]. *)
Definition bgk_state (tau : R) (f feq : nat -> R) (i : nat) : R := f i - 1 / (tau + 1/2) * (f i - feq i).

(** Velocity of the populations. *)
Definition velocity (st : stencil) (f : nat -> R) (a : nat) : R := momentum st f a / mass st f.

(** Momentum flux of the product-form equilibrium on D2Q9. *)
Definition entropic_flux (s rho : R) (u : nat -> R) (a b : nat) : R :=
  if Nat.eqb a b then rho * (s * s) * (2 * sqrt (1 + 3 * ((u a / s) * (u a / s))) - 1) / 3
  else rho * u a * u b.

(** Momentum flux of the equilibrium of the time loop. *)
Definition standard_flux (st : stencil) (rho : R) (u : nat -> R) (a b : nat) : R :=
  rho * (st_cs2 st * delta a b + u a * u b).

(** Pseudo-entropy of the populations: sum of f_i^2 / w_i. *)
Definition pseudo_entropy (st : stencil) (f : nat -> R) : R := sumf (st_Q st) (fun i => f i * f i / st_w st i).

(** Trace-free part of the momentum flux. *)
Definition deviatoric (st : stencil) (f : nat -> R) (a b : nat) : R :=
  moment2 st f a b - delta a b / INR (st_D st) * sumf (st_D st) (fun c => moment2 st f c c).

(** Two populations agree in mass, momentum and the trace-free part of the momentum flux. *)
Definition same_deviatoric (st : stencil) (f f' : nat -> R) : Prop :=
  mass st f' = mass st f /\ (forall a, (a < st_D st)%nat -> momentum st f' a = momentum st f a) /\
  forall a b, (a < st_D st)%nat -> (b < st_D st)%nat -> deviatoric st f' a b = deviatoric st f a b.

(** Entropy - sum f_i ln (f_i / w_i). *)
Definition H (Q : nat) (w f : nat -> R) : R := - sumf Q (fun i => f i * ln (f i / w i)).

(** The stencils the KBC classes handle, with the scalings for which mass is conserved. *)
Definition kbc_case (c : entropic_class) (m : old_model) : Prop :=
  match c with
  | KBCStandard => om_t m = Stencil_D2Q9 \/ om_t m = Stencil_D3Q15 /\ om_s m = 1
  | KBCCentral => om_t m = Stencil_D2Q9
  | EntropicStabilized => om_t m = Stencil_D2Q9 \/ om_t m = Stencil_D3Q19
  end.
