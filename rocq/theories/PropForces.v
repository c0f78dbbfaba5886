(** Properties C12-C14: forces, compressible collision, selection. *)
From Verif Require Import Prelude ModelStencils SpecStencils ModelConfigNames ModelEquilibria ModelCollision ModelSelection SpecCollision SpecSetup
  SpecSelection BigSum ProofEqMoments ProofCollideNode ProofForces ProofFixed ProofSelection ProofCompressible ProofPhysical.
Open Scope R_scope.

(** C12. Exact difference: momentum changes by dt F, mass not at all, for every scheme;
    the stored velocity includes half the impulse. *)
Theorem C12_exact_difference : forall k q cfg t s nu dt (F f u : nat -> R) o,
  closed_form t = true -> valid_setup cfg s nu dt -> carries_momentum q = true ->
  cc_equilibrium cfg <> STEADYSTATE_EQUILIBRIUM -> cc_forcing cfg = EXACT_DIFFERENCE ->
  collide_node k q (make_genData cfg (Some F) (stencil_of t s) s nu dt) false f u = Ok o ->
  let st := stencil_of t s in
  changes_momentum_by st f (no_f o) (fun a => dt * F a) /\ no_rho o = mass st f /\
  forall a, (a < st_D st)%nat -> no_u o a = (momentum st f a + dt / 2 * F a) / mass st f.
Proof. exact exact_ok. Qed.
Print Assumptions C12_exact_difference.

(** C12. Shifting velocity: dt F times a factor that is one for BGK and for MRT in the modes
    other than RELAX_DHUMIERES_PAPER, tau for Regularized, zero for RELAX_DHUMIERES_PAPER. *)
Theorem C12_shifting_velocity : forall k q cfg t s nu dt (F f u : nat -> R) o,
  closed_form t = true -> valid_setup cfg s nu dt -> carries_momentum q = true ->
  cc_equilibrium cfg <> STEADYSTATE_EQUILIBRIUM -> cc_forcing cfg = SHIFTING_VELOCITY ->
  collide_node k q (make_genData cfg (Some F) (stencil_of t s) s nu dt) false f u = Ok o ->
  let st := stencil_of t s in let tau := nu / (dt * st_cs2 st) + 1/2 in
  changes_momentum_by st f (no_f o) (fun a => shift_factor k cfg tau * dt * F a) /\ no_rho o = mass st f /\
  forall a, (a < st_D st)%nat -> no_u o a = (momentum st f a + dt / 2 * F a) / mass st f.
Proof. exact shifting_ok. Qed.
Print Assumptions C12_shifting_velocity.

(** C12. Forced collisions run whenever unforced ones do. *)
Theorem C12_forces_run : forall k q cfg t s nu dt (F f u : nat -> R),
  closed_form t = true -> valid_setup cfg s nu dt -> carries_momentum q = true ->
  cc_forcing cfg = SHIFTING_VELOCITY \/ cc_forcing cfg = EXACT_DIFFERENCE ->
  dense (stencil_of t s) f -> runs_on k t cfg = true ->
  exists o, collide_node k q (make_genData cfg (Some F) (stencil_of t s) s nu dt) false f u = Ok o.
Proof. exact force_runs. Qed.
Print Assumptions C12_forces_run.

(** C12. An external force with forcing scheme NO_FORCING or GUO is an error, never ignored. *)
Theorem C12_force_needs_scheme : forall k q cfg st s nu dt (F f u : nat -> R),
  cc_forcing cfg = NO_FORCING \/ cc_forcing cfg = GUO ->
  collide_node k q (make_genData cfg (Some F) st s nu dt) false f u = Throw.
Proof. exact force_needs_scheme. Qed.
Print Assumptions C12_force_needs_scheme.

(** C12. Full statement (refuted): shifting velocity adds dt F with every scheme. *)
Theorem C12_regularized_shifting_refuted : exists cfg t s nu dt F f u o,
  closed_form t = true /\ valid_setup cfg s nu dt /\ cc_forcing cfg = SHIFTING_VELOCITY /\
  collide_node Regularized BGKEquilibrium (make_genData cfg (Some F) (stencil_of t s) s nu dt) false f u = Ok o /\
  momentum (stencil_of t s) (no_f o) 0 <> momentum (stencil_of t s) f 0 + dt * F 0%nat.
Proof. exact force_regularized_bad. Qed.
Print Assumptions C12_regularized_shifting_refuted.

Theorem C12_dhumieres_shifting_refuted : exists cfg t s nu dt F f u o,
  closed_form t = true /\ valid_setup cfg s nu dt /\ cc_forcing cfg = SHIFTING_VELOCITY /\
  collide_node MultipleRelaxationTime BGKEquilibrium (make_genData cfg (Some F) (stencil_of t s) s nu dt) false f u = Ok o /\
  F 0%nat <> 0 /\ momentum (stencil_of t s) (no_f o) 0 = momentum (stencil_of t s) f 0.
Proof. exact force_dhumieres_bad. Qed.
Print Assumptions C12_dhumieres_shifting_refuted.

Example C12_nonvacuous : exists o, collide_node BGKCollision BGKEquilibrium
   (make_genData (wcfg SHIFTING_VELOCITY RELAX_FULL DELLAR_D2Q9) (Some unitF) (stencil_of Stencil_D3Q15 1) 1 1 1) false rest rest = Ok o /\
   momentum (stencil_of Stencil_D3Q15 1) (no_f o) 0 = momentum (stencil_of Stencil_D3Q15 1) rest 0 + 1.
Proof.
  destruct (force_runs BGKCollision BGKEquilibrium (wcfg SHIFTING_VELOCITY RELAX_FULL DELLAR_D2Q9) Stencil_D3Q15 1 1 1 unitF rest rest eq_refl
     (wsetup _ _ _) eq_refl (or_introl eq_refl) (rest_dense _ _) eq_refl) as [o Ho].
  exists o. split; [exact Ho|].
  destruct (shifting_ok BGKCollision BGKEquilibrium _ Stencil_D3Q15 1 1 1 unitF rest rest o eq_refl (wsetup _ _ _) eq_refl ltac:(discriminate) eq_refl Ho)
    as [[_ H] _]. rewrite (H 0%nat) by (cbn; lia). cbn [shift_factor unitF]. ring.
Qed.

(** C13. With the quartic equilibrium on a stencil isotropic to sixth order (D2Q25H among the
    closed-form ones), mass, momentum and total energy are conserved, for every Prandtl number
    and Sutherland setting. *)
Theorem C13_compressible_conserves : forall cfg t s nu dt (f g u : nat -> R) o,
  order6 t -> valid_setup cfg s nu dt -> cc_heat_gamma cfg <> 1 ->
  collide_node_g QuarticEquilibrium (make_genData cfg None (stencil_of t s) s nu dt) false f g u = Ok o ->
  let st := stencil_of t s in
  conserves st f (ng_f o) /\ energy2 st (ng_f o) (ng_g o) = energy2 st f g /\
  ng_rho o = mass st f /\ forall a, (a < st_D st)%nat -> ng_u o a = momentum st f a / mass st f.
Proof. exact compressible_ok. Qed.
Print Assumptions C13_compressible_conserves.

Theorem C13_compressible_runs : forall cfg t s nu dt (f g u : nat -> R), dense (stencil_of t s) f ->
  exists o, collide_node_g QuarticEquilibrium (make_genData cfg None (stencil_of t s) s nu dt) false f g u = Ok o.
Proof. exact compressible_runs. Qed.
Print Assumptions C13_compressible_runs.

(** C13. With the (selectable) second-order equilibrium mass and momentum are conserved, the
    energy drifts towards temperature one. *)
Theorem C13_bgk_energy_drift : forall cfg t s nu dt (f g u : nat -> R) o,
  order6 t -> valid_setup cfg s nu dt -> cc_heat_gamma cfg <> 1 -> cc_equilibrium cfg <> STEADYSTATE_EQUILIBRIUM ->
  collide_node_g BGKEquilibrium (make_genData cfg None (stencil_of t s) s nu dt) false f g u = Ok o ->
  let st := stencil_of t s in
  conserves st f (ng_f o) /\
  energy2 st (ng_f o) (ng_g o) = energy2 st f g
    + 1 / (nu / (dt * st_cs2 st) * (if cc_sutherland cfg then Rpower (ng_T o / (85/100)) (7/10) else 1) / (ng_T o * mass st f) + 1/2)
      * (INR (st_D st) * mass st f * st_cs2 st * (1 - ng_T o)).
Proof. exact bgk_compressible_energy. Qed.
Print Assumptions C13_bgk_energy_drift.

(** C13. Full statement (refuted): energy is conserved by every selectable combination. *)
Theorem C13_bgk_energy_refuted :
  (exists e, selectCollision 2 true Stencil_D2Q25H BGK_STANDARD BGK_EQUILIBRIUM = ([e], false) /\
     en_coll e = BGKCollision /\ en_eq e = BGKEquilibrium) /\
  exists cfg t s nu dt f g u o,
  closed_form t = true /\ valid_setup cfg s nu dt /\ cc_heat_gamma cfg <> 1 /\
  collide_node_g BGKEquilibrium (make_genData cfg None (stencil_of t s) s nu dt) false f g u = Ok o /\
  energy2 (stencil_of t s) (ng_f o) (ng_g o) <> energy2 (stencil_of t s) f g.
Proof. exact (conj (ex_intro _ _ (conj eq_refl (conj eq_refl eq_refl))) bgk_energy_bad). Qed.
Print Assumptions C13_bgk_energy_refuted.

Example C13_nonvacuous : order6 Stencil_D2Q25H /\
  valid_setup (wcfg NO_FORCING RELAX_FULL DELLAR_D2Q9) 1 1 1 /\ dense (stencil_of Stencil_D2Q25H 1) rest /\
  selectCollision 2 true Stencil_D2Q25H BGK_STANDARD QUARTIC_EQUILIBRIUM
   = ([mkEntry 2 25 Stencil_D2Q25H BGK_STANDARD QUARTIC_EQUILIBRIUM BGKCollision QuarticEquilibrium], false).
Proof. split; [split; [reflexivity|cbn; lia]|]. split; [apply wsetup|]. split; [apply rest_dense|reflexivity]. Qed.

(** C14. Either nothing runs and an exception is thrown, or exactly one collision operator
    runs, on the dimensions of the stencil; it is the named one except for the combinations in
    [mismatch], where BGK with the second-order equilibrium runs. *)
Theorem C14_selection : forall dim compressible st c q run thr,
  dim = 2%nat \/ dim = 3%nat -> selectCollision dim compressible st c q = (run, thr) ->
  thr = true /\ run = [] \/
  thr = false /\ exists e, run = [e] /\ en_stencil e = st /\
     en_D e = st_D (stencil_of st 1) /\ en_Q e = st_Q (stencil_of st 1) /\
     (~ mismatch compressible st c q /\ named_collision c = Some (en_coll e) /\ named_equilibrium q = Some (en_eq e) \/
      mismatch compressible st c q /\ en_coll e = BGKCollision /\ en_eq e = BGKEquilibrium).
Proof. exact selection_ok. Qed.
Print Assumptions C14_selection.

(** C14. Full statement (refuted): whatever runs is the configured pair. *)
Theorem C14_selection_refuted : exists dim compressible st c q run,
  (dim = 2%nat \/ dim = 3%nat) /\ dim = st_D (stencil_of st 1) /\
  selectCollision dim compressible st c q = (run, false) /\
  ~ (exists e, run = [e] /\ named_collision c = Some (en_coll e) /\ named_equilibrium q = Some (en_eq e)).
Proof. exact selection_refuted. Qed.
Print Assumptions C14_selection_refuted.

Example C14_nonvacuous : exists e, selectCollision 3 false Stencil_D3Q19 MRT_STANDARD BGK_EQUILIBRIUM = ([e], false) /\
  en_coll e = MultipleRelaxationTime.
Proof. eexists. split; reflexivity. Qed.
