(** Properties C07-C11 and C15: the incompressible collision. *)
From Coq Require Import Permutation.
From Verif Require Import Prelude ModelStencils SpecStencils ModelConfigNames ModelEquilibria ModelCollision SpecCollision SpecSetup
  SpecCollideAll BigSum ProofEqMoments ProofRelax ProofCollideNode ProofFixed ProofCollideAll ProofPhysical SpecDHumieres ProofDHumieres.
Open Scope R_scope.

(** C07, C08, C10. A collision that runs, of any scheme, leaves mass and momentum of every
    distribution unchanged, and stores exactly that density and velocity. *)
Theorem C07_bgk_conserves : forall q cfg t s nu dt f u o,
  closed_form t = true -> s <> 0 -> carries_momentum q = true ->
  collide_node BGKCollision q (make_genData cfg None (stencil_of t s) s nu dt) false f u = Ok o ->
  conserves (stencil_of t s) f (no_f o) /\ no_rho o = mass (stencil_of t s) f /\
  forall a, (a < st_D (stencil_of t s))%nat -> no_u o a = momentum (stencil_of t s) f a / mass (stencil_of t s) f.
Proof. exact (collide_conserves BGKCollision). Qed.
Print Assumptions C07_bgk_conserves.

Theorem C08_regularized_conserves : forall q cfg t s nu dt f u o,
  closed_form t = true -> s <> 0 -> carries_momentum q = true ->
  collide_node Regularized q (make_genData cfg None (stencil_of t s) s nu dt) false f u = Ok o ->
  conserves (stencil_of t s) f (no_f o) /\ no_rho o = mass (stencil_of t s) f /\
  forall a, (a < st_D (stencil_of t s))%nat -> no_u o a = momentum (stencil_of t s) f a / mass (stencil_of t s) f.
Proof. exact (collide_conserves Regularized). Qed.
Print Assumptions C08_regularized_conserves.

Theorem C10_mrt_conserves : forall q cfg t s nu dt f u o,
  closed_form t = true -> s <> 0 -> carries_momentum q = true ->
  collide_node MultipleRelaxationTime q (make_genData cfg None (stencil_of t s) s nu dt) false f u = Ok o ->
  conserves (stencil_of t s) f (no_f o) /\ no_rho o = mass (stencil_of t s) f /\
  forall a, (a < st_D (stencil_of t s))%nat -> no_u o a = momentum (stencil_of t s) f a / mass (stencil_of t s) f.
Proof. exact (collide_conserves MultipleRelaxationTime). Qed.
Print Assumptions C10_mrt_conserves.

(** When a collision runs: always for BGK and Regularized on dense nodes; for MRT exactly on
    the combinations of stencil, basis and mode listed by [mrt_accepts]. *)
Theorem C10_collision_runs : forall k q cfg t s nu dt f u,
  closed_form t = true -> valid_setup cfg s nu dt -> carries_momentum q = true -> dense (stencil_of t s) f ->
  (exists o, collide_node k q (make_genData cfg None (stencil_of t s) s nu dt) false f u = Ok o) <-> runs_on k t cfg = true.
Proof. exact collide_runs. Qed.
Print Assumptions C10_collision_runs.

(** C07. Every equilibrium is a fixed point of every collision scheme. *)
Theorem C07_equilibria_are_fixed : forall k q cfg t s nu dt rho v f u,
  closed_form t = true -> valid_setup cfg s nu dt -> carries_momentum q = true -> runs_on k t cfg = true ->
  1 / 10 ^ 10 <= rho -> equilibrium_populations q cfg (stencil_of t s) s rho v 1 f ->
  exists o, collide_node k q (make_genData cfg None (stencil_of t s) s nu dt) false f u = Ok o /\
    (forall i, (i < st_Q (stencil_of t s))%nat -> no_f o i = f i) /\ no_rho o = rho /\
    (forall a, (a < st_D (stencil_of t s))%nat -> no_u o a = v a).
Proof. exact collide_fixes. Qed.
Print Assumptions C07_equilibria_are_fixed.

Example C07_nonvacuous : exists o,
  collide_node BGKCollision BGKEquilibrium (make_genData (wcfg NO_FORCING RELAX_FULL DELLAR_D2Q9) None (stencil_of Stencil_D2Q9 1) 1 1 1) false rest rest = Ok o
  /\ mass (stencil_of Stencil_D2Q9 1) (no_f o) = 1 /\ no_f o 1%nat <> rest 1%nat.
Proof.
  destruct (proj2 (collide_runs BGKCollision BGKEquilibrium (wcfg NO_FORCING RELAX_FULL DELLAR_D2Q9) Stencil_D2Q9 1 1 1 rest rest eq_refl
     (wsetup _ _ _) eq_refl (rest_dense _ _)) eq_refl) as [o Ho].
  exists o. split; [exact Ho|]. split.
  - destruct (collide_conserves BGKCollision BGKEquilibrium _ Stencil_D2Q9 1 1 1 rest rest o eq_refl ltac:(lra) eq_refl Ho) as [[H _] _].
    rewrite H. unfold mass. cbn [stencil_of D2Q9 st_Q sumf rest]. ring.
  - unfold collide_node in Ho. change (st_Q (gd_L _)) with 9%nat in Ho. rewrite (density_ok 9 rest (rest_dense Stencil_D2Q9 1)) in Ho. cbn [obind] in Ho.
    cbn [make_genData gd_force obind fst snd relax eq_calc] in Ho. injection Ho as <-. cbn [no_f]. unfold relax_BGK.
    cbn [make_genData wcfg cc_equilibrium gd_L gd_tau].
    unfold calculateTauFromNu, BGKEquilibrium_calc, calculateVelocity. cbn [is_DQ unscale stencil_of D2Q9 st_D st_Q Nat.eqb andb].
    unfold BGKEquilibrium_2_9, calculateVelocity_2_9. cbn [unscale D2Q9 st_cs2 sumf rest]. lra.
Qed.

(** C08. The non-equilibrium stress is scaled by exactly 1 - 1/tau (also for BGK). *)
Theorem C08_stress_relaxation : forall k cfg t s nu dt f u o,
  closed_form t = true -> valid_setup cfg s nu dt -> cc_equilibrium cfg <> STEADYSTATE_EQUILIBRIUM ->
  k = BGKCollision \/ k = Regularized ->
  collide_node k BGKEquilibrium (make_genData cfg None (stencil_of t s) s nu dt) false f u = Ok o ->
  let tau := nu / (dt * st_cs2 (stencil_of t s)) + 1/2 in
  forall a b, (a < st_D (stencil_of t s))%nat -> (b < st_D (stencil_of t s))%nat ->
    stress (stencil_of t s) (no_f o) a b = (1 - 1 / tau) * stress (stencil_of t s) f a b.
Proof. exact stress_relax. Qed.
Print Assumptions C08_stress_relaxation.

(** C08. The regularized result depends on density, momentum and second moment only. *)
Theorem C08_depends_on_low_moments : forall q cfg t s nu dt f f' u u' o,
  closed_form t = true -> valid_setup cfg s nu dt -> carries_momentum q = true ->
  mass (stencil_of t s) f = mass (stencil_of t s) f' ->
  (forall a, (a < st_D (stencil_of t s))%nat -> momentum (stencil_of t s) f a = momentum (stencil_of t s) f' a) ->
  (forall a b, (a < st_D (stencil_of t s))%nat -> (b < st_D (stencil_of t s))%nat ->
     moment2 (stencil_of t s) f a b = moment2 (stencil_of t s) f' a b) ->
  collide_node Regularized q (make_genData cfg None (stencil_of t s) s nu dt) false f u = Ok o ->
  exists o', collide_node Regularized q (make_genData cfg None (stencil_of t s) s nu dt) false f' u' = Ok o' /\
             forall i, no_f o' i = no_f o i.
Proof. exact reg_depends. Qed.
Print Assumptions C08_depends_on_low_moments.

Example C08_nonvacuous : exists o,
  collide_node Regularized BGKEquilibrium (make_genData (wcfg NO_FORCING RELAX_FULL DELLAR_D2Q9) None (stencil_of Stencil_D3Q27 1) 1 1 1) false rest rest = Ok o
  /\ stress (stencil_of Stencil_D3Q27 1) rest 0 0 = - (1/3).
Proof.
  destruct (proj2 (collide_runs Regularized BGKEquilibrium (wcfg NO_FORCING RELAX_FULL DELLAR_D2Q9) Stencil_D3Q27 1 1 1 rest rest eq_refl
     (wsetup _ _ _) eq_refl (rest_dense _ _)) eq_refl) as [o Ho].
  exists o. split; [exact Ho|].
  assert (Hm : forall n (f : nat -> R), sumf (S n) (fun i => rest i * f i) = f 0%nat).
  { induction n; intros f; [cbn; ring|]. cbn [sumf] in *. rewrite IHn. cbn [rest]. ring. }
  assert (E0 : mass (stencil_of Stencil_D3Q27 1) rest = 1).
  { unfold mass. rewrite (sumf_ext _ _ (fun i => rest i * 1)) by (intros; ring). apply (Hm 26%nat (fun _ => 1)). }
  assert (Ee : forall a, (a < 3)%nat -> st_e (stencil_of Stencil_D3Q27 1) 0 a = 0).
  { intros a Ha. destruct a as [|[|[|a]]]; [| | |lia]; cbn; unfold tbl, tblQ, Rdefinitions.Q2R; cbn; ring. }
  assert (E1 : momentum (stencil_of Stencil_D3Q27 1) rest 0 = 0).
  { unfold momentum. etransitivity; [apply (Hm 26%nat (fun i => st_e (stencil_of Stencil_D3Q27 1) i 0))|]. apply Ee. lia. }
  assert (E2 : moment2 (stencil_of Stencil_D3Q27 1) rest 0 0 = 0).
  { unfold moment2. rewrite (sumf_ext _ _ (fun i => rest i * (st_e (stencil_of Stencil_D3Q27 1) i 0 * st_e (stencil_of Stencil_D3Q27 1) i 0))) by (intros; ring).
    etransitivity; [apply (Hm 26%nat (fun i => st_e (stencil_of Stencil_D3Q27 1) i 0 * st_e (stencil_of Stencil_D3Q27 1) i 0))|].
    rewrite Ee by lia. ring. }
  unfold stress. rewrite E0, E1, E2. cbn [stencil_of D3Q27 st_cs2]. unfold delta. cbn [Nat.eqb]. lra.
Qed.

(** C07. The incompressible equilibrium does not conserve momentum: each collision pulls it
    towards momentum / density (it does for density one or zero momentum). *)
Theorem C07_incompressible_momentum_drift : forall cfg t s nu dt f u o,
  closed_form t = true -> valid_setup cfg s nu dt -> cc_equilibrium cfg <> STEADYSTATE_EQUILIBRIUM ->
  collide_node BGKCollision IncompressibleEquilibrium (make_genData cfg None (stencil_of t s) s nu dt) false f u = Ok o ->
  let st := stencil_of t s in let tau := nu / (dt * st_cs2 st) + 1/2 in
  mass st (no_f o) = mass st f /\
  forall a, (a < st_D st)%nat ->
   momentum st (no_f o) a = momentum st f a - 1 / tau * (momentum st f a - momentum st f a / mass st f).
Proof. exact incompressible_momentum. Qed.
Print Assumptions C07_incompressible_momentum_drift.

(** C09. Both products of the moment transform and its inverse are the identity. *)
Theorem C09_mrt_inverse : forall (Q : nat) (basis : MomentBasis) (M T : nat -> nat -> R),
  make_M Q basis = Ok M -> make_T Q basis = Ok T ->
  forall (f : nat -> R) (i : nat), (i < Q)%nat ->
    matvec Q T (matvec Q M f) i = f i /\ matvec Q M (matvec Q T f) i = f i.
Proof. exact mrt_inverse. Qed.
Print Assumptions C09_mrt_inverse.

Example C09_nonvacuous : (exists M T, make_M 19 DHUMIERES_D3Q19 = Ok M /\ make_T 19 DHUMIERES_D3Q19 = Ok T) /\
  (exists M T, make_M 9 DELLAR_D2Q9 = Ok M /\ make_T 9 DELLAR_D2Q9 = Ok T) /\
  (exists M T, make_M 9 LALLEMAND_D2Q9 = Ok M /\ make_T 9 LALLEMAND_D2Q9 = Ok T).
Proof. repeat split; eexists; eexists; split; reflexivity. Qed.

Example C10_nonvacuous : mrt_accepts Stencil_D3Q19 DHUMIERES_D3Q19 RELAX_DHUMIERES_PAPER = true /\
  exists o, collide_node MultipleRelaxationTime BGKEquilibrium
    (make_genData (wcfg NO_FORCING RELAX_DHUMIERES_PAPER DHUMIERES_D3Q19) None (stencil_of Stencil_D3Q19 1) 1 1 1) false rest rest = Ok o.
Proof.
  split; [reflexivity|].
  exact (proj2 (collide_runs MultipleRelaxationTime BGKEquilibrium (wcfg NO_FORCING RELAX_DHUMIERES_PAPER DHUMIERES_D3Q19) Stencil_D3Q19 1 1 1 rest rest eq_refl
     (wsetup _ _ _) eq_refl (rest_dense _ _)) eq_refl).
Qed.

(** C11. Full statement (refuted): in the mode DELLAR_RELAX_ONLY_N the ghost moment N is set
    to its equilibrium. *)
Theorem C11_only_N_refuted : exists cfg s nu dt f u o,
  valid_setup cfg s nu dt /\ cc_mrt_basis cfg = DELLAR_D2Q9 /\ cc_mrt_relax cfg = DELLAR_RELAX_ONLY_N /\
  collide_node MultipleRelaxationTime BGKEquilibrium (make_genData cfg None (D2Q9 s) s nu dt) false f u = Ok o /\
  forall feq, equilibrium_populations BGKEquilibrium cfg (D2Q9 s) s (mass (D2Q9 s) f)
                (fun a => momentum (D2Q9 s) f a / mass (D2Q9 s) f) 1 feq -> ghost_N (no_f o) <> ghost_N feq.
Proof. exact only_N_bad. Qed.
Print Assumptions C11_only_N_refuted.

(** C11. What the mode does: the second ghost flux is set to its equilibrium, everything else
    (including N) relaxes with 1/tau; the result is BGK when that flux is in equilibrium. *)
Theorem C11_only_N_actual : forall cfg s nu dt f u o,
  valid_setup cfg s nu dt -> cc_equilibrium cfg <> STEADYSTATE_EQUILIBRIUM ->
  cc_mrt_basis cfg = DELLAR_D2Q9 -> cc_mrt_relax cfg = DELLAR_RELAX_ONLY_N ->
  collide_node MultipleRelaxationTime BGKEquilibrium (make_genData cfg None (D2Q9 s) s nu dt) false f u = Ok o ->
  let tau := nu / (dt * st_cs2 (D2Q9 s)) + 1/2 in
  exists feq, equilibrium_populations BGKEquilibrium cfg (D2Q9 s) s (mass (D2Q9 s) f)
                (fun a => momentum (D2Q9 s) f a / mass (D2Q9 s) f) 1 feq /\
    ghost_J (no_f o) 1 = ghost_J feq 1 /\
    ghost_J (no_f o) 0 = ghost_J f 0 - 1 / tau * (ghost_J f 0 - ghost_J feq 0) /\
    ghost_N (no_f o) = ghost_N f - 1 / tau * (ghost_N f - ghost_N feq) /\
    (forall a b, (a < 2)%nat -> (b < 2)%nat ->
      moment2 (D2Q9 s) (no_f o) a b = moment2 (D2Q9 s) f a b - 1 / tau * (moment2 (D2Q9 s) f a b - moment2 (D2Q9 s) feq a b)) /\
    (ghost_J f 1 = ghost_J feq 1 -> forall i, (i < 9)%nat -> no_f o i = f i - 1 / tau * (f i - feq i)).
Proof. exact dellar_only_N. Qed.
Print Assumptions C11_only_N_actual.

(** C11. Full relaxation: all three ghost moments are set to their equilibria, the stress
    relaxes with 1/tau; the result is BGK when the ghost moments are in equilibrium. *)
Theorem C11_full_relaxation : forall cfg s nu dt f u o,
  valid_setup cfg s nu dt -> cc_equilibrium cfg <> STEADYSTATE_EQUILIBRIUM ->
  cc_mrt_basis cfg = DELLAR_D2Q9 -> cc_mrt_relax cfg = RELAX_FULL ->
  collide_node MultipleRelaxationTime BGKEquilibrium (make_genData cfg None (D2Q9 s) s nu dt) false f u = Ok o ->
  let tau := nu / (dt * st_cs2 (D2Q9 s)) + 1/2 in
  exists feq, equilibrium_populations BGKEquilibrium cfg (D2Q9 s) s (mass (D2Q9 s) f)
                (fun a => momentum (D2Q9 s) f a / mass (D2Q9 s) f) 1 feq /\
    ghost_N (no_f o) = ghost_N feq /\ (forall a, (a < 2)%nat -> ghost_J (no_f o) a = ghost_J feq a) /\
    (forall a b, (a < 2)%nat -> (b < 2)%nat ->
      moment2 (D2Q9 s) (no_f o) a b = moment2 (D2Q9 s) f a b - 1 / tau * (moment2 (D2Q9 s) f a b - moment2 (D2Q9 s) feq a b)) /\
    (ghost_N f = ghost_N feq -> (forall a, (a < 2)%nat -> ghost_J f a = ghost_J feq a) ->
     forall i, (i < 9)%nat -> no_f o i = f i - 1 / tau * (f i - feq i)).
Proof. exact dellar_full. Qed.
Print Assumptions C11_full_relaxation.

(** C11. The d'Humieres basis on D3Q19, in both modes: the components of the momentum flux off the
    diagonal and the differences of its diagonal components relax with 1/tau.  Full
    relaxation: so does its trace; the nine other moments are set to their equilibria; the
    result is BGK when they are in equilibrium.  Rates of the paper: the trace and the
    nine other moments relax with the rates given there. *)
Theorem C11_dhumieres : forall cfg s nu dt f u o,
  valid_setup cfg s nu dt -> cc_equilibrium cfg <> STEADYSTATE_EQUILIBRIUM ->
  cc_mrt_basis cfg = DHUMIERES_D3Q19 -> cc_mrt_relax cfg = RELAX_FULL \/ cc_mrt_relax cfg = RELAX_DHUMIERES_PAPER ->
  collide_node MultipleRelaxationTime BGKEquilibrium (make_genData cfg None (D3Q19 s) s nu dt) false f u = Ok o ->
  let tau := nu / (dt * st_cs2 (D3Q19 s)) + 1/2 in
  let full := cc_mrt_relax cfg = RELAX_FULL in
  let m2 := moment2 (D3Q19 s) in
  let trace h := m2 h 0%nat 0%nat + m2 h 1%nat 1%nat + m2 h 2%nat 2%nat in
  exists feq, equilibrium_populations BGKEquilibrium cfg (D3Q19 s) s (mass (D3Q19 s) f)
                (fun a => momentum (D3Q19 s) f a / mass (D3Q19 s) f) 1 feq /\
    (forall a b, (a < 3)%nat -> (b < 3)%nat -> a <> b -> m2 (no_f o) a b = m2 f a b - 1 / tau * (m2 f a b - m2 feq a b)) /\
    (forall a b, (a < 3)%nat -> (b < 3)%nat ->
       m2 (no_f o) a a - m2 (no_f o) b b = (m2 f a a - m2 f b b) - 1 / tau * ((m2 f a a - m2 f b b) - (m2 feq a a - m2 feq b b))) /\
    (full -> trace (no_f o) = trace f - 1 / tau * (trace f - trace feq)) /\
    (~ full -> trace (no_f o) = trace f - dhumieres_energy_rate * (trace f - trace feq)) /\
    (full -> forall k, (k < 9)%nat -> dhumieres_moment k (no_f o) = dhumieres_moment k feq) /\
    (~ full -> forall k, (k < 9)%nat -> dhumieres_moment k (no_f o) =
       dhumieres_moment k f - dhumieres_rate k * (dhumieres_moment k f - dhumieres_moment k feq)) /\
    (full -> (forall k, (k < 9)%nat -> dhumieres_moment k f = dhumieres_moment k feq) ->
       forall i, (i < 19)%nat -> no_f o i = f i - 1 / tau * (f i - feq i)).
Proof. exact dhumieres_modes. Qed.
Print Assumptions C11_dhumieres.

Example C11_dhumieres_nonvacuous : forall mode, mode = RELAX_FULL \/ mode = RELAX_DHUMIERES_PAPER ->
  exists o, collide_node MultipleRelaxationTime BGKEquilibrium
    (make_genData (wcfg NO_FORCING mode DHUMIERES_D3Q19) None (D3Q19 1) 1 1 1) false rest rest = Ok o.
Proof.
  intros mode H.
  refine (proj2 (collide_runs MultipleRelaxationTime BGKEquilibrium (wcfg NO_FORCING mode DHUMIERES_D3Q19) Stencil_D3Q19 1 1 1 rest rest eq_refl
     (wsetup _ _ _) eq_refl (rest_dense _ _)) _).
  destruct H as [-> | ->]; reflexivity.
Qed.

Example C11_nonvacuous : exists o, collide_node MultipleRelaxationTime BGKEquilibrium
    (make_genData (wcfg NO_FORCING RELAX_FULL DELLAR_D2Q9) None (D2Q9 1) 1 1 1) false rest rest = Ok o.
Proof.
  exact (proj2 (collide_runs MultipleRelaxationTime BGKEquilibrium (wcfg NO_FORCING RELAX_FULL DELLAR_D2Q9) Stencil_D2Q9 1 1 1 rest rest eq_refl
     (wsetup _ _ _) eq_refl (rest_dense _ _)) eq_refl).
Qed.

(** C15. The collision of all nodes owned by a rank is the single-node collision of each;
    nothing else changes. *)
Theorem C15_node_by_node : forall k q gd init (nodes : list nat) (s s' : fields),
  NoDup nodes -> collideAll k q gd init nodes s = Ok s' ->
  (forall n, In n nodes -> node_done k q gd init s s' n) /\ (forall n, ~ In n nodes -> node_kept s s' n).
Proof. exact all_node_by_node. Qed.
Print Assumptions C15_node_by_node.

(** C15. Any two distributions of the same nodes over ranks, in any order, give the same fields. *)
Theorem C15_partition_independent : forall k q gd init (ranks ranks' : list (list nat)) (s s1 s2 : fields),
  NoDup (concat ranks) -> Permutation (concat ranks) (concat ranks') ->
  run_ranks k q gd init ranks s = Ok s1 -> run_ranks k q gd init ranks' s = Ok s2 -> same_fields s1 s2.
Proof. exact partition_independent. Qed.
Print Assumptions C15_partition_independent.

(** C15. And they run, provided every rank owns a node and every node is dense. *)
Theorem C15_ranks_run : forall k q gd init (ranks : list (list nat)) (s : fields),
  NoDup (concat ranks) -> (forall r, In r ranks -> r <> []) -> all_dense k q gd init (concat ranks) s ->
  exists s', run_ranks k q gd init ranks s = Ok s'.
Proof. exact ranks_run. Qed.
Print Assumptions C15_ranks_run.

(** C15. Full statement (refuted): a rank that owns no node does nothing.  It throws
    DensityZeroException, whatever the fields. *)
Theorem C15_empty_rank_refuted : exists nodes, NoDup nodes /\ forall k q gd init s, collideAll k q gd init nodes s = Throw.
Proof. exact (ex_intro _ [] (conj (NoDup_nil _) empty_rank_throws)). Qed.
Print Assumptions C15_empty_rank_refuted.

Example C15_nonvacuous :
  let gd := make_genData (wcfg NO_FORCING RELAX_FULL DELLAR_D2Q9) None (stencil_of Stencil_D2Q9 1) 1 1 1 in
  let s := {| fl_f := fun _ => rest; fl_rho := fun _ => 0; fl_u := fun _ _ => 0 |} in
  NoDup (concat [[0; 2]; [1]]%nat) /\ Permutation (concat [[0; 2]; [1]]%nat) (concat [[2; 1; 0]]%nat) /\
  all_dense BGKCollision BGKEquilibrium gd false (concat [[0; 2]; [1]]%nat) s.
Proof.
  split; [|split].
  - repeat constructor; cbn; intuition discriminate.
  - cbn. apply (Permutation_trans (l' := [0; 1; 2]%nat)).
    + apply perm_skip. apply perm_swap.
    + apply (Permutation_rev [0; 1; 2]%nat).
  - intros n _. cbn [fl_f fl_u].
    destruct (proj2 (collide_runs BGKCollision BGKEquilibrium (wcfg NO_FORCING RELAX_FULL DELLAR_D2Q9) Stencil_D2Q9 1 1 1 rest (fun _ => 0) eq_refl
       (wsetup _ _ _) eq_refl (rest_dense _ _)) eq_refl) as [o Ho].
    exists o. split; [exact Ho|].
    destruct (collide_conserves BGKCollision BGKEquilibrium _ Stencil_D2Q9 1 1 1 rest _ o eq_refl ltac:(lra) eq_refl Ho) as [_ [H _]].
    rewrite H. unfold mass. cbn [stencil_of D2Q9 st_Q sumf rest]. lra.
Qed.
