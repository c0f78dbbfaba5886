(** Properties C04-C06: the equilibrium distributions. *)
From Verif Require Import Prelude ModelStencils SpecStencils ModelConfigNames ModelEquilibria ModelCollision SpecCollision SpecSetup
  BigSum ProofEqMoments ProofPhysical.
Open Scope R_scope.

(** C04. The BGK equilibrium carries density rho, momentum rho v, momentum flux
    rho (cs^2 delta + v v), and the third moment of a second-order expansion. *)
Theorem C04_bgk_equilibrium_moments : forall cfg (t : StencilType) (s rho : R) (v : nat -> R) (T : R) (f : nat -> R),
  closed_form t = true -> s <> 0 ->
  equilibrium_populations BGKEquilibrium cfg (stencil_of t s) s rho v T f ->
  let st := stencil_of t s in
  mass st f = rho /\
  (forall a, (a < st_D st)%nat -> momentum st f a = rho * v a) /\
  (forall a b, (a < st_D st)%nat -> (b < st_D st)%nat -> moment2 st f a b = rho * (st_cs2 st * delta a b + v a * v b)) /\
  (forall a b c, (a < st_D st)%nat -> (b < st_D st)%nat -> (c < st_D st)%nat ->
     moment3 st f a b c = rho * st_cs2 st * (v a * delta b c + v b * delta a c + v c * delta a b)).
Proof. exact bgk_phys. Qed.
Print Assumptions C04_bgk_equilibrium_moments.

Example C04_nonvacuous : exists f,
  equilibrium_populations BGKEquilibrium (wcfg NO_FORCING RELAX_FULL DELLAR_D2Q9) (stencil_of Stencil_D3Q19 5) 5 3 (fun a => INR a) 1 f /\
  momentum (stencil_of Stencil_D3Q19 5) f 2 = 6.
Proof.
  destruct (eqpop_exists BGKEquilibrium (wcfg NO_FORCING RELAX_FULL DELLAR_D2Q9) (stencil_of Stencil_D3Q19 5) 5 3 (fun a => INR a) 1) as [f Hf];
    [discriminate|].
  exists f. split; [assumption|].
  destruct (bgk_phys _ Stencil_D3Q19 5 _ _ _ f eq_refl ltac:(lra) Hf) as [_ [H _]]. rewrite (H 2%nat) by (cbn; lia). cbn. lra.
Qed.

(** C05a. Incompressible equilibrium: density rho, momentum v (reference density one). *)
Theorem C05_incompressible_moments : forall cfg (t : StencilType) (s rho : R) (v : nat -> R) (T : R) (f : nat -> R),
  closed_form t = true -> s <> 0 ->
  equilibrium_populations IncompressibleEquilibrium cfg (stencil_of t s) s rho v T f ->
  let st := stencil_of t s in
  mass st f = rho /\
  (forall a, (a < st_D st)%nat -> momentum st f a = v a) /\
  (forall a b, (a < st_D st)%nat -> (b < st_D st)%nat -> moment2 st f a b = rho * st_cs2 st * delta a b + v a * v b).
Proof. exact inc_phys. Qed.
Print Assumptions C05_incompressible_moments.

(** C05b. Steady-state equilibrium: density and momentum for every gamma; gamma divides
    the convective part of the flux. *)
Theorem C05_steady_state_moments : forall cfg (t : StencilType) (s rho : R) (v : nat -> R) (T : R) (f : nat -> R),
  closed_form t = true -> s <> 0 -> cc_equilibrium cfg = STEADYSTATE_EQUILIBRIUM ->
  equilibrium_populations SteadyStateEquilibrium cfg (stencil_of t s) s rho v T f ->
  let st := stencil_of t s in
  mass st f = rho /\
  (forall a, (a < st_D st)%nat -> momentum st f a = rho * v a) /\
  (forall a b, (a < st_D st)%nat -> (b < st_D st)%nat ->
     moment2 st f a b = rho * (st_cs2 st * delta a b + v a * v b / cc_ss_gamma cfg)).
Proof. exact ss_phys. Qed.
Print Assumptions C05_steady_state_moments.

(** C05c. Quartic equilibrium: density and momentum at every temperature, and on the
    stencils isotropic to sixth / seventh order the full second and third moments. *)
Theorem C05_quartic_moments : forall cfg (t : StencilType) (s rho : R) (v : nat -> R) (T : R) (f : nat -> R),
  closed_form t = true -> s <> 0 ->
  equilibrium_populations QuarticEquilibrium cfg (stencil_of t s) s rho v T f ->
  let st := stencil_of t s in
  mass st f = rho /\
  (forall a, (a < st_D st)%nat -> momentum st f a = rho * v a) /\
  ((6 <= moment_order t)%nat -> forall a b, (a < st_D st)%nat -> (b < st_D st)%nat ->
     moment2 st f a b = rho * (T * st_cs2 st * delta a b + v a * v b)) /\
  ((7 <= moment_order t)%nat -> forall a b c, (a < st_D st)%nat -> (b < st_D st)%nat -> (c < st_D st)%nat ->
     moment3 st f a b c = rho * (v a * v b * v c + T * st_cs2 st * (v a * delta b c + v b * delta a c + v c * delta a b))).
Proof. exact q_phys. Qed.
Print Assumptions C05_quartic_moments.

(** C05d. Its energy is D rho T cs^2 + rho |v|^2. *)
Theorem C05_quartic_energy : forall cfg (t : StencilType) (s rho : R) (v : nat -> R) (T : R) (f : nat -> R),
  closed_form t = true -> s <> 0 -> (6 <= moment_order t)%nat ->
  equilibrium_populations QuarticEquilibrium cfg (stencil_of t s) s rho v T f ->
  let st := stencil_of t s in
  sumf (st_Q st) (fun i => f i * dot (st_D st) (st_e st i) (st_e st i)) = rho * (INR (st_D st) * T * st_cs2 st + dot (st_D st) v v).
Proof. exact q_energy. Qed.
Print Assumptions C05_quartic_energy.

Example C05_nonvacuous : closed_form Stencil_D2Q25H = true /\ (7 <= moment_order Stencil_D2Q25H)%nat /\
  exists f, equilibrium_populations QuarticEquilibrium (wcfg NO_FORCING RELAX_FULL DELLAR_D2Q9) (stencil_of Stencil_D2Q25H 2) 2 3 (fun _ => 1) 2 f /\
            moment2 (stencil_of Stencil_D2Q25H 2) f 0 1 = 3.
Proof.
  split; [reflexivity|]. split; [cbn; lia|].
  destruct (eqpop_exists QuarticEquilibrium (wcfg NO_FORCING RELAX_FULL DELLAR_D2Q9) (stencil_of Stencil_D2Q25H 2) 2 3 (fun _ => 1) 2) as [f Hf];
    [discriminate|].
  exists f. split; [assumption|].
  destruct (q_phys _ Stencil_D2Q25H 2 _ _ _ f eq_refl ltac:(lra) Hf) as [_ [_ [H _]]]. rewrite (H ltac:(cbn; lia) 0%nat 1%nat) by (cbn; lia).
  unfold delta. cbn [Nat.eqb]. lra.
Qed.

(** C06. The specialised code computes exactly what the generic loops compute, on
    every stencil (the specialisations apply to D2Q9 and D3Q19). *)
Theorem C06_equilibrium_specialisation : forall (t : StencilType) (s rho : R) (u : nat -> R) (i : nat),
  s <> 0 -> (i < st_Q (stencil_of t s))%nat ->
  BGKEquilibrium_calc (unscale (stencil_of t s) s) rho u i = BGKEquilibrium_generic (unscale (stencil_of t s) s) rho u i.
Proof. exact bgk_calc_generic. Qed.
Print Assumptions C06_equilibrium_specialisation.

Theorem C06_velocity_specialisation : forall (t : StencilType) (s : R) (f : nat -> R) (rho : R) (j : nat),
  s <> 0 -> rho <> 0 -> (j < st_D (stencil_of t s))%nat ->
  calculateVelocity (unscale (stencil_of t s) s) f rho j = calculateVelocity_generic (unscale (stencil_of t s) s) f rho j.
Proof. exact velocity_generic. Qed.
Print Assumptions C06_velocity_specialisation.

Example C06_nonvacuous : is_DQ (unscale (stencil_of Stencil_D2Q9 3) 3) 2 9 = true /\
  is_DQ (unscale (stencil_of Stencil_D3Q19 3) 3) 3 19 = true /\
  calculateVelocity (unscale (stencil_of Stencil_D2Q9 3) 3) (fun i => INR i) 36 0 = -1/18.
Proof. split; [reflexivity|]. split; [reflexivity|]. cbn. lra. Qed.
