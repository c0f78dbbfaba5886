(** Properties C02, C04, C05, C07, C08 and C13 for every stencil, including those whose data are decimal literals:
    the equalities hold up to the tolerance of the literals. *)
From Verif Require Import Prelude ModelStencils SpecStencils ModelConfigNames ModelEquilibria ModelCollision SpecCollision SpecSetup
  SpecNear BigSum ProofEqMoments ProofCollideNode ProofCompressible ProofPhysical ProofNearEq ProofNearCollide ProofNearReg.
Local Open Scope R_scope.

(** C02. The stencils for compressible flow: orders up to nine in two, up to seven in three dimensions. *)
Theorem C02_high_order_moments : forall (t : StencilType) (s : R) (l : list nat),
  Forall (fun a => (a < st_D (stencil_of t s))%nat) l -> (length l <= high_order t)%nat ->
  Rabs (tmom (stencil_of t s) l - IZR (wick l) * st_cs2 (stencil_of t s) ^ (Nat.div2 (length l)))
    <= high_tol t * Rabs (st_cs (stencil_of t s)) ^ (length l).
Proof. exact high_tmom. Qed.
Print Assumptions C02_high_order_moments.

(** All components in direction x: 15 cs^6 at order six on D3Q45. *)
Example C02_high_nonvacuous : (length [0; 0; 0; 0; 0; 0]%nat <= high_order Stencil_D3Q45)%nat /\ wick [0; 0; 0; 0; 0; 0]%nat = 15%Z.
Proof. split; [cbn; lia|reflexivity]. Qed.

(** C04. Every stencil but D2Q777. *)
Theorem C04_bgk_equilibrium_moments_tolerance : forall cfg (t : StencilType) (s rho : R) (v : nat -> R) (T : R) (f : nat -> R),
  s <> 0 -> (5 <= moment_order t)%nat ->
  equilibrium_populations BGKEquilibrium cfg (stencil_of t s) s rho v T f ->
  let st := stencil_of t s in let B := moment_tol t * Rabs rho * (1 + mach st v) ^ 2 in let c := Rabs (st_cs st) in
  Rabs (mass st f - rho) <= B /\
  (forall a, (a < st_D st)%nat -> Rabs (momentum st f a - rho * v a) <= B * c) /\
  (forall a b, (a < st_D st)%nat -> (b < st_D st)%nat ->
     Rabs (moment2 st f a b - rho * (st_cs2 st * delta a b + v a * v b)) <= B * c ^ 2) /\
  (forall a b d, (a < st_D st)%nat -> (b < st_D st)%nat -> (d < st_D st)%nat ->
     Rabs (moment3 st f a b d - rho * st_cs2 st * (v a * delta b d + v b * delta a d + v d * delta a b)) <= B * c ^ 3).
Proof. exact near_bgk. Qed.
Print Assumptions C04_bgk_equilibrium_moments_tolerance.

Example C04_tolerance_nonvacuous : closed_form Stencil_D3Q45 = false /\ (5 <= moment_order Stencil_D3Q45)%nat /\
  exists f, equilibrium_populations BGKEquilibrium (wcfg NO_FORCING RELAX_FULL DELLAR_D2Q9) (stencil_of Stencil_D3Q45 2) 2 3 (fun _ => 1) 2 f.
Proof. split; [reflexivity|]. split; [cbn; lia|]. apply eqpop_exists. discriminate. Qed.

Theorem C05_incompressible_moments_tolerance : forall cfg (t : StencilType) (s rho : R) (v : nat -> R) (T : R) (f : nat -> R),
  s <> 0 -> (5 <= moment_order t)%nat ->
  equilibrium_populations IncompressibleEquilibrium cfg (stencil_of t s) s rho v T f ->
  let st := stencil_of t s in let B := moment_tol t * (Rabs rho + mach st v + mach st v ^ 2) in let c := Rabs (st_cs st) in
  Rabs (mass st f - rho) <= B /\
  (forall a, (a < st_D st)%nat -> Rabs (momentum st f a - v a) <= B * c) /\
  (forall a b, (a < st_D st)%nat -> (b < st_D st)%nat ->
     Rabs (moment2 st f a b - (rho * st_cs2 st * delta a b + v a * v b)) <= B * c ^ 2).
Proof. exact near_inc. Qed.
Print Assumptions C05_incompressible_moments_tolerance.

Theorem C05_steady_state_moments_tolerance : forall cfg (t : StencilType) (s rho : R) (v : nat -> R) (T : R) (f : nat -> R),
  s <> 0 -> (5 <= moment_order t)%nat -> cc_equilibrium cfg = STEADYSTATE_EQUILIBRIUM ->
  equilibrium_populations SteadyStateEquilibrium cfg (stencil_of t s) s rho v T f ->
  let st := stencil_of t s in let c := Rabs (st_cs st) in
  let B := moment_tol t * Rabs rho * (1 + mach st v + mach st v ^ 2 / Rabs (cc_ss_gamma cfg)) in
  Rabs (mass st f - rho) <= B /\
  (forall a, (a < st_D st)%nat -> Rabs (momentum st f a - rho * v a) <= B * c) /\
  (forall a b, (a < st_D st)%nat -> (b < st_D st)%nat ->
     Rabs (moment2 st f a b - rho * (st_cs2 st * delta a b + v a * v b / cc_ss_gamma cfg)) <= B * c ^ 2).
Proof. exact near_ss. Qed.
Print Assumptions C05_steady_state_moments_tolerance.

Theorem C05_quartic_moments_tolerance : forall cfg (t : StencilType) (s rho : R) (v : nat -> R) (T : R) (f : nat -> R),
  s <> 0 -> equilibrium_populations QuarticEquilibrium cfg (stencil_of t s) s rho v T f ->
  let st := stencil_of t s in let M := expansion_size st v T in let c := Rabs (st_cs st) in
  ((5 <= moment_order t)%nat -> Rabs (mass st f - rho) <= moment_tol t * Rabs rho * M /\
     forall a, (a < st_D st)%nat -> Rabs (momentum st f a - rho * v a) <= moment_tol t * Rabs rho * M * c) /\
  ((6 <= high_order t)%nat -> forall a b, (a < st_D st)%nat -> (b < st_D st)%nat ->
     Rabs (moment2 st f a b - rho * (T * st_cs2 st * delta a b + v a * v b)) <= high_tol t * Rabs rho * M * c ^ 2) /\
  ((7 <= high_order t)%nat -> forall a b d, (a < st_D st)%nat -> (b < st_D st)%nat -> (d < st_D st)%nat ->
     Rabs (moment3 st f a b d - rho * (v a * v b * v d + T * st_cs2 st * (v a * delta b d + v b * delta a d + v d * delta a b)))
       <= high_tol t * Rabs rho * M * c ^ 3).
Proof. exact near_quartic. Qed.
Print Assumptions C05_quartic_moments_tolerance.

Example C05_tolerance_nonvacuous : closed_form Stencil_D3Q77 = false /\ (7 <= high_order Stencil_D3Q77)%nat /\
  exists f, equilibrium_populations QuarticEquilibrium (wcfg NO_FORCING RELAX_FULL DELLAR_D2Q9) (stencil_of Stencil_D3Q77 2) 2 3 (fun _ => 1) 2 f.
Proof. split; [reflexivity|]. split; [cbn; lia|]. apply eqpop_exists. discriminate. Qed.

(** C07. One BGK collision changes mass and momentum by no more than the tolerance. *)
Theorem C07_bgk_conserves_tolerance : forall q cfg t s nu dt f u o,
  (5 <= moment_order t)%nat -> valid_setup cfg s nu dt ->
  cc_equilibrium cfg <> STEADYSTATE_EQUILIBRIUM -> q = BGKEquilibrium \/ q = QuarticEquilibrium ->
  collide_node BGKCollision q (make_genData cfg None (stencil_of t s) s nu dt) false f u = Ok o ->
  let st := stencil_of t s in
  let v := fun a => momentum st f a / mass st f in
  let B := moment_tol t * mass st f * (1 + mach st v) ^ 4 / (nu / (dt * st_cs2 st) + 1/2) in
  Rabs (mass st (no_f o) - mass st f) <= B /\
  (forall a, (a < st_D st)%nat -> Rabs (momentum st (no_f o) a - momentum st f a) <= B * Rabs (st_cs st)) /\
  no_rho o = mass st f /\ (forall a, (a < st_D st)%nat -> no_u o a = v a).
Proof. exact bgk_near. Qed.
Print Assumptions C07_bgk_conserves_tolerance.

(** C08. One regularized collision. *)
Theorem C08_regularized_conserves_tolerance : forall q cfg t s nu dt f u o feq,
  (5 <= moment_order t)%nat -> valid_setup cfg s nu dt ->
  cc_equilibrium cfg <> STEADYSTATE_EQUILIBRIUM -> q = BGKEquilibrium \/ q = QuarticEquilibrium ->
  collide_node Regularized q (make_genData cfg None (stencil_of t s) s nu dt) false f u = Ok o ->
  let st := stencil_of t s in
  let v := fun a => momentum st f a / mass st f in
  let tau := nu / (dt * st_cs2 st) + 1/2 in
  let N := moment_tol t * mass st f * (1 + mach st v) ^ 4 in
  equilibrium_populations q cfg st s (mass st f) v 1 feq ->
  Rabs (mass st (no_f o) - mass st f) <= N + Rabs (1 - 1 / tau) * (moment_tol t *
     sumf (st_D st) (fun b => sumf (st_D st) (fun c => Rabs (moment2 st f b c - moment2 st feq b c))) / st_cs2 st) /\
  (forall a, (a < st_D st)%nat -> Rabs (momentum st (no_f o) a - momentum st f a) <= N * Rabs (st_cs st)) /\
  no_rho o = mass st f /\ (forall a, (a < st_D st)%nat -> no_u o a = v a).
Proof. exact regularized_near. Qed.
Print Assumptions C08_regularized_conserves_tolerance.

(** C13. One collision with two populations and the fourth-order equilibrium, on all stencils for compressible flow.
    The temperature ng_T is the one that accounts for the energy. *)
Theorem C13_compressible_conserves_tolerance : forall cfg t s nu dt f g u o feq,
  (6 <= high_order t)%nat -> valid_setup cfg s nu dt ->
  cc_equilibrium cfg <> STEADYSTATE_EQUILIBRIUM -> cc_heat_gamma cfg <> 1 ->
  collide_node_g QuarticEquilibrium (make_genData cfg None (stencil_of t s) s nu dt) false f g u = Ok o ->
  let st := stencil_of t s in
  let m := mass st f in
  let v := fun a => momentum st f a / m in
  let T := ng_T o in
  let tau := nu / (dt * st_cs2 st) * (if cc_sutherland cfg then Rpower (T / (85/100)) (7/10) else 1) / (T * m) + 1/2 in
  let B := Rabs (1 / tau) * (high_tol t * m * expansion_size st v T) in
  equilibrium_populations QuarticEquilibrium cfg st s m v T feq ->
  Rabs (mass st (ng_f o) - m) <= B /\
  (forall a, (a < st_D st)%nat -> Rabs (momentum st (ng_f o) a - momentum st f a) <= B * Rabs (st_cs st) +
     if cc_prandtl_set cfg then Rabs (1 / tau - 1 / ((tau - 1/2) / cc_prandtl cfg + 1/2)) *
       (high_tol t * (2 / 3 * sumf (st_D st) (fun a => sumf (st_D st) (fun b => sumf (st_D st) (fun c =>
          Rabs (central3 st v (fun i => f i - feq i) a b c))))) / st_cs2 st)
     else 0) /\
  Rabs (energy2 st (ng_f o) (ng_g o) - energy2 st f g) <=
     B * st_cs2 st * (INR (st_D st) + Rabs (T * (2 / (cc_heat_gamma cfg - 1) - INR (st_D st)))) /\
  2 / (cc_heat_gamma cfg - 1) * m * st_cs2 st * T = energy2 st f g - m * dot (st_D st) v v /\
  ng_rho o = m /\ (forall a, (a < st_D st)%nat -> ng_u o a = v a).
Proof. exact compressible_near. Qed.
Print Assumptions C13_compressible_conserves_tolerance.

(** A stencil that is not covered by the exact theorems, and a node that collides. *)
Example C13_tolerance_nonvacuous : closed_form Stencil_D3Q45 = false /\ (6 <= high_order Stencil_D3Q45)%nat /\
  valid_setup (wcfg NO_FORCING RELAX_FULL DELLAR_D2Q9) 1 1 1 /\ cc_heat_gamma (wcfg NO_FORCING RELAX_FULL DELLAR_D2Q9) <> 1 /\
  exists o, collide_node_g QuarticEquilibrium (make_genData (wcfg NO_FORCING RELAX_FULL DELLAR_D2Q9) None (stencil_of Stencil_D3Q45 1) 1 1 1)
              false rest rest rest = Ok o.
Proof.
  split; [reflexivity|]. split; [cbn; lia|]. split; [apply wsetup|]. split; [cbn; lra|]. apply compressible_runs, rest_dense.
Qed.

(** At rest, temperature one and unit mass, the mass error of one collision of D3Q45 is below 10^-12. *)
Example C07_tolerance_size : moment_tol Stencil_D3Q45 * 1 * (1 + mach (stencil_of Stencil_D3Q45 1) (fun _ => 0)) ^ 4 / (1 / (1 * st_cs2 (stencil_of Stencil_D3Q45 1)) + 1 / 2) <= 1 / 10 ^ 12.
Proof.
  assert (Hm : mach (stencil_of Stencil_D3Q45 1) (fun _ => 0) = 0).
  { unfold mach. rewrite (sumf_zero _ (fun _ => Rabs 0)) by (intros; apply Rabs_R0). unfold Rdiv. ring. }
  rewrite Hm.
  assert (Hc : 0 < st_cs2 (stencil_of Stencil_D3Q45 1)) by (apply cs2_pos; lra).
  set (x := st_cs2 (stencil_of Stencil_D3Q45 1)) in *. clearbody x.
  assert (Hi : 0 < 1 / (1 * x)) by (apply Rdiv_lt_0_compat; lra).
  unfold moment_tol.
  match goal with |- ?A / ?B <= _ => assert (HB : 1/2 < B) by lra; apply Rmult_le_reg_r with B; [lra|]; unfold Rdiv at 1; rewrite Rmult_assoc, Rinv_l by lra end.
  lra.
Qed.
