(** Properties C16-C25: the time loop, checkpoints and restart. *)
From Coq Require Import Sorted.
From Verif Require Import Prelude ModelStencils ModelConfigNames ModelEquilibria ModelCollision ModelSelection ModelRun ModelCheckpoint
  SpecText SpecStencils SpecCollision SpecSetup SpecRun SpecCheckpoint
  ProofRun ProofRun2 ProofRestart ProofRestart2 ProofCheckpoint ProofRunEx.
Open Scope R_scope.

(** C16. A run from iteration a that stops at b: collision a; then report i, stream, collide
    for i = a..b-1; then one final report of b.  In particular every iteration is reported
    once, and there are b-a streamings and b-a+1 collisions. *)
Theorem C16_every_iteration_reported_once : forall X D (c : run_config) (o : solver_ops X D) fuel s0 s tr,
  run c o fuel s0 = Some (Ok (s, tr)) ->
  let a := sv_start s0 in let b := sv_i s in
  (a <= b)%nat /\ steps_of tr = expected_steps a b /\
  reports_of tr = map (fun i => (i, false)) (seq a (b - a)) ++ [(b, true)] /\
  streamings tr = (b - a)%nat /\ collisions tr = (b - a + 1)%nat.
Proof. exact @run_reports. Qed.
Print Assumptions C16_every_iteration_reported_once.

Example C16_nonvacuous : exists s tr, run (w_c 5 1) w_ops 6 (fresh w_x0 1) = Some (Ok (s, tr)) /\
  reports_of tr = [(0, false); (1, false); (2, false); (3, false); (4, false); (5, true)]%nat.
Proof.
  destruct (w_run 5 ltac:(lia)) as (s & tr & E & Hi). exists s, tr. split; [exact E|].
  destruct (C16_every_iteration_reported_once _ _ _ _ _ _ _ _ E) as (_ & _ & -> & _). rewrite Hi. reflexivity.
Qed.

(** C17. No streaming step starts at or beyond the maximal iteration number or the end time;
    the run stops because one of them is reached or because the residual, tested every 100
    iterations, is below the threshold. *)
Theorem C17_stop_conditions : forall X D (c : run_config) (o : solver_ops X D) fuel s0 s tr,
  run c o fuel s0 = Some (Ok (s, tr)) ->
  (forall i t, In (EvStream i t) tr -> (i < rc_steps c)%nat /\ t < rc_end_time c) /\
  ((rc_steps c <= sv_i s)%nat \/ rc_end_time c <= sv_time s \/ ((sv_i s mod 100 = 0)%nat /\ sv_res_u s < rc_threshold c)).
Proof. exact @run_stops. Qed.
Print Assumptions C17_stop_conditions.

(** C17. Without convergence criterion and with constant step size the last iteration is the
    first one at or beyond the maximal number or the end time. *)
Theorem C17_stops_at_first : forall X D (c : run_config) (o : solver_ops X D) fuel s0 s tr,
  constant_step c o -> rc_threshold c <= 0 -> 0 <= sv_res_u s0 ->
  run c o fuel s0 = Some (Ok (s, tr)) ->
  let due i := (rc_steps c <= i)%nat \/ rc_end_time c <= sv_time s0 + INR (i - sv_start s0) * sv_dt s0 in
  due (sv_i s) /\ forall i, (sv_start s0 <= i < sv_i s)%nat -> ~ due i.
Proof. exact @run_final. Qed.
Print Assumptions C17_stops_at_first.

(** C17. Every run ends, whatever the operators do; it ends without an error if the
    intervals are those accepted by the configuration and the collision does not fail. *)
Theorem C17_runs_end : forall X D (c : run_config) (o : solver_ops X D) s0,
  run c o (S (rc_steps c - sv_start s0)) s0 <> None.
Proof. exact @run_ends. Qed.
Print Assumptions C17_runs_end.

Theorem C17_runs_succeed : forall X D (c : run_config) (o : solver_ops X D) (P : X -> Prop),
  valid_intervals c -> keeps o P -> forall s0, rc_compressible c = false -> P (sv_x s0) ->
  exists s tr, run c o (S (rc_steps c - sv_start s0)) s0 = Some (Ok (s, tr)) /\ P (sv_x s).
Proof. exact @run_runs. Qed.
Print Assumptions C17_runs_succeed.

Example C17_nonvacuous : valid_intervals (w_c 7 1) /\ keeps w_ops good /\ good w_x0 /\
  exists s tr, run (w_c 7 1) w_ops 8 (fresh w_x0 1) = Some (Ok (s, tr)) /\ sv_i s = 7%nat.
Proof.
  split; [repeat split; cbn; lia|split; [exact w_keeps|split; [|exact (w_run 7 ltac:(lia))]]].
  exists 1, 1, 2, 2. split; [exact w_x0_is|]. repeat split; lra.
Qed.

(** C18. The simulation time of a run with constant step size, at its end and at the start
    of every streaming step. *)
Theorem C18_time : forall X D (c : run_config) (o : solver_ops X D) fuel s0 s tr,
  constant_step c o -> run c o fuel s0 = Some (Ok (s, tr)) ->
  sv_time s = sv_time s0 + INR (sv_i s - sv_start s0) * sv_dt s0 /\ sv_dt s = sv_dt s0 /\
  forall i t, In (EvStream i t) tr -> t = sv_time s0 + INR (i - sv_start s0) * sv_dt s0.
Proof. exact @run_time. Qed.
Print Assumptions C18_time.

Example C18_nonvacuous : constant_step (w_c 3 1) w_ops /\
  exists s tr, run (w_c 3 1) w_ops 4 (fresh w_x0 1) = Some (Ok (s, tr)) /\ sv_time s = 3.
Proof.
  split; [left; reflexivity|]. destruct (w_run 3 ltac:(lia)) as (s & tr & E & Hi). exists s, tr. split; [exact E|].
  destruct (C18_time _ _ (w_c 3 1) w_ops _ _ _ _ (or_introl eq_refl) E) as (-> & _). rewrite Hi. cbn. ring.
Qed.

(** C19. Checkpoints are written in ascending order for exactly the iterations that are due:
    multiples of the interval and the last one, except the start iteration, unless the
    interval is above 1e8 or (incompressible solver) output is switched off. *)
Theorem C19_checkpoint_schedule : forall X D (c : run_config) (o : solver_ops X D) fuel s0 s tr,
  run c o fuel s0 = Some (Ok (s, tr)) ->
  let a := sv_start s0 in let b := sv_i s in
  (forall i, In i (checkpoints_of tr) <-> (a <= i <= b)%nat /\ checkpoint_due c a b i) /\
  StronglySorted lt (checkpoints_of tr).
Proof. exact @run_checkpoints. Qed.
Print Assumptions C19_checkpoint_schedule.

Example C19_nonvacuous : exists s tr, run (w_c 3 1) w_ops 4 (fresh w_x0 1) = Some (Ok (s, tr)) /\
  In 2%nat (checkpoints_of tr) /\ ~ In 0%nat (checkpoints_of tr).
Proof.
  destruct (w_run 3 ltac:(lia)) as (s & tr & E & Hi). exists s, tr. split; [exact E|].
  destruct (C19_checkpoint_schedule _ _ _ _ _ _ _ _ E) as (H & _). rewrite !H, Hi. cbn [fresh sv_start]. split.
  - split; [lia|]. split; [left; reflexivity|]. split; [|split; [discriminate|left; reflexivity]].
    cbn [w_c rc_checkpoint_interval INR]. assert (1 <= 10^8) by (apply pow_R1_Rle; lra). lra.
  - intros (_ & _ & _ & H0 & _). apply H0. reflexivity.
Qed.

(** C20. Full statement (refuted): restarting from the checkpoint of iteration n gives the
    populations of the uninterrupted run.  Counterexample: two nodes at rest with densities 1
    and 2, D2Q9, BGK with relaxation time 2, checkpoint at iteration 1, end at iteration 2. *)
Theorem C20_restart_refuted : exists k q gd st s nodes advect filt c x0 s1 tr1 stat d s2 tr2,
  let o := cfd_ops k q gd st s nodes advect filt in
  valid_intervals c /\ rc_compressible c = false /\ rc_threshold c <= 0 /\
  run c o 3 (fresh x0 1) = Some (Ok (s1, tr1)) /\ In (EvCheckpoint 1%nat stat d) tr1 /\ cs_time stat = 1 /\
  run c o 3 (restarted (printed stat) (restored_fields st d) 1) = Some (Ok (s2, tr2)) /\
  sv_i s1 = 2%nat /\ sv_i s2 = 2%nat /\ sv_time s1 = sv_time s2 /\
  exists n, In n nodes /\ fl_f (sv_x s1) n 0%nat <> fl_f (sv_x s2) n 0%nat.
Proof. exact restart_bad. Qed.
Print Assumptions C20_restart_refuted.

(** The time stored in a checkpoint has six significant digits. *)
Theorem C20_time_refuted : exists t, 0 < t /\ print_read t <> t.
Proof. exact time_lost. Qed.
Print Assumptions C20_time_refuted.

(** Times of up to six digits survive; other times are off by half a unit in the sixth. *)
Theorem C20_time_kept : forall t, (decimal 6 t -> print_read t = t) /\
  Rabs (print_read t - t) <= 1/2 * powerRZ 10 (-5) * Rabs t.
Proof. exact time_text. Qed.
Print Assumptions C20_time_kept.

(** C20, what holds: from the checkpoint of iteration n on, the uninterrupted run is the
    evolution of the checkpointed state, and the restarted run is the evolution of the
    once more collided restored state from the printed time.  Missing for the full
    statement: that collision repeated, and the exact time. *)
Theorem C20_restart_partial : forall X D (c : run_config) (o : solver_ops X D) fuel s0 s tr n st d fuel' x0 s' tr',
  constant_step c o -> rc_compressible c = false ->
  run c o fuel s0 = Some (Ok (s, tr)) -> In (EvCheckpoint n st d) tr -> so_data o x0 = d ->
  run c o fuel' (restarted (printed st) x0 (sv_dt s0)) = Some (Ok (s', tr')) ->
  exists xn y, so_data o xn = d /\ so_collide o x0 = Ok y /\
    evolve c o (sv_i s - n) n (cs_time st) (sv_dt s0) xn = Ok (sv_x s) /\
    evolve c o (sv_i s' - n) n (print_read (cs_time st)) (sv_dt s0) y = Ok (sv_x s').
Proof. exact @restart_evolves. Qed.
Print Assumptions C20_restart_partial.

(** C20 under the conditions that make up for both: the checkpoint time survives printing,
    colliding the restored state again gives the checkpointed state, and no convergence
    criterion is used. *)
Theorem C20_restart_exact : forall X D (c : run_config) (o : solver_ops X D) fuel s0 s tr n st d fuel' x0 s' tr',
  constant_step c o -> rc_compressible c = false -> rc_threshold c <= 0 -> 0 <= sv_res_u s0 ->
  run c o fuel s0 = Some (Ok (s, tr)) -> In (EvCheckpoint n st d) tr -> so_data o x0 = d ->
  print_read (cs_time st) = cs_time st ->
  (forall y0 x, so_collide o (sv_x s0) = Ok y0 ->
     evolve c o (n - sv_start s0) (sv_start s0) (sv_time s0) (sv_dt s0) y0 = Ok x -> so_collide o x0 = Ok x) ->
  run c o fuel' (restarted (printed st) x0 (sv_dt s0)) = Some (Ok (s', tr')) ->
  sv_i s' = sv_i s /\ sv_time s' = sv_time s /\ sv_x s' = sv_x s.
Proof. exact @restart_exact. Qed.
Print Assumptions C20_restart_exact.

(** C20. What a run computes: one collision of the initial state, then [evolve]; every
    checkpoint holds iteration number, time, order, scaling and data of its iteration. *)
Theorem C20_run_is_evolution : forall X D (c : run_config) (o : solver_ops X D) fuel s0 s tr,
  constant_step c o -> rc_compressible c = false -> run c o fuel s0 = Some (Ok (s, tr)) ->
  exists y, so_collide o (sv_x s0) = Ok y /\
    evolve c o (sv_i s - sv_start s0) (sv_start s0) (sv_time s0) (sv_dt s0) y = Ok (sv_x s) /\
    forall n st d, In (EvCheckpoint n st d) tr ->
      cs_iteration st = n /\ cs_time st = sv_time s0 + INR (n - sv_start s0) * sv_dt s0 /\
      cs_order st = rc_order c /\ cs_scaling st = so_scaling o /\
      exists xn, evolve c o (n - sv_start s0) (sv_start s0) (sv_time s0) (sv_dt s0) y = Ok xn /\ d = so_data o xn.
Proof. exact @run_evolution. Qed.
Print Assumptions C20_run_is_evolution.

Example C20_nonvacuous : exists (c : run_config) (o : solver_ops R R) s0 s tr st d s' tr',
  constant_step c o /\ rc_compressible c = false /\ rc_threshold c <= 0 /\ 0 <= sv_res_u s0 /\
  run c o 4 s0 = Some (Ok (s, tr)) /\ In (EvCheckpoint 1%nat st d) tr /\ print_read (cs_time st) = cs_time st /\
  (forall y0 x, so_collide o (sv_x s0) = Ok y0 ->
       evolve c o (1 - sv_start s0) (sv_start s0) (sv_time s0) (sv_dt s0) y0 = Ok x -> so_collide o d = Ok x) /\
  run c o 4 (restarted (printed st) d (sv_dt s0)) = Some (Ok (s', tr')) /\ sv_i s = 3%nat.
Proof. exact restart_example. Qed.

(** C21. Full statement (refuted): after a restart the velocity field is the first moment of
    the restored populations divided by the density.  It is zero. *)
Theorem C21_velocity_refuted : exists t f n a, dense (stencil_of t 1) (f n) /\ (a < st_D (stencil_of t 1))%nat /\
  fl_u (restored_fields (stencil_of t 1) f) n a <> momentum (stencil_of t 1) (f n) a / mass (stencil_of t 1) (f n).
Proof. exact restored_velocity_bad. Qed.
Print Assumptions C21_velocity_refuted.

(** C21, what holds: the density; and both fields after the first collision of the run.
    Missing: the velocity between construction and first collision. *)
Theorem C21_density_partial : forall st f n, fl_rho (restored_fields st f) n = mass st (f n).
Proof. exact restored_density. Qed.
Print Assumptions C21_density_partial.

Theorem C21_fields_after_collision : forall k q cfg t s nu dt nodes f y n,
  closed_form t = true -> s <> 0 -> carries_momentum q = true -> NoDup nodes -> In n nodes ->
  collideAll k q (make_genData cfg None (stencil_of t s) s nu dt) false nodes (restored_fields (stencil_of t s) f) = Ok y ->
  fl_rho y n = mass (stencil_of t s) (f n) /\
  forall a, (a < st_D (stencil_of t s))%nat -> fl_u y n a = momentum (stencil_of t s) (f n) a / mass (stencil_of t s) (f n).
Proof. intros k q cfg t s nu dt nodes f. exact (fun y n => fields_after_collision k q cfg t s nu dt nodes (restored_fields (stencil_of t s) f) y n). Qed.
Print Assumptions C21_fields_after_collision.

Example C21_nonvacuous : exists y, so_collide w_ops (restored_fields (stencil_of Stencil_D2Q9 1) (fl_f w_x0)) = Ok y.
Proof. destruct (state_collides (restored_fields (stencil_of Stencil_D2Q9 1) (fl_f w_x0)) 1 1 2 2 w_x0_is) as (y & Hy & _); try lra. exists y. exact Hy. Qed.

(** C22. Full statement (refuted): reading checkpoint n returns the data last written for n.
    A request for iteration 1 overwrites the files of the largest iteration present. *)
Theorem C22_overwritten_refuted : exists (h : list (request nat)) n st d t dir st' d',
  latest n h st d /\ restartable t = true /\ saves h [] = Ok dir /\ load n t (cs_order st) dir = Ok (st', d') /\
  d' <> d /\ cs_iteration st' <> cs_iteration st.
Proof. exact read_back_bad. Qed.
Print Assumptions C22_overwritten_refuted.

Theorem C22_first_refuted : exists (h : list (request nat)) st d t dir st' d',
  latest 1 h st d /\ restartable t = true /\ saves h [] = Ok dir /\ load 1 t (cs_order st) dir = Ok (st', d') /\ d' <> d.
Proof. exact read_back_1_bad. Qed.
Print Assumptions C22_first_refuted.

(** Once the compressible solver has written a checkpoint, restarting from the latest one
    (iteration 1) throws, and so does writing a checkpoint for iteration 1. *)
Theorem C22_compressible_latest_throws : forall (D : Type) n st (d g : D) dir t order, n <> 1%nat ->
  exists dir', save_compressible n st d g dir = Ok dir' /\ load 1 t order dir' = Throw /\
    (forall st1 d1 g1, save_compressible 1 st1 d1 g1 dir' = Throw).
Proof. exact compressible_latest_bad. Qed.
Print Assumptions C22_compressible_latest_throws.

(** C22, what holds: histories without a request for iteration 1, whatever the directory
    contained before.  Missing: iteration 1. *)
Theorem C22_read_back_partial : forall D (h : list (request D)) dir0 n st d t,
  (forall r, In r h -> iteration_of r <> 1%nat) -> latest n h st d -> restartable t = true ->
  exists dir, saves h dir0 = Ok dir /\ load n t (cs_order st) dir = Ok (printed st, d).
Proof. exact @read_back. Qed.
Print Assumptions C22_read_back_partial.

Example C22_nonvacuous : let h := [(5, st0 5, 50); (7, st0 7, 70); (5, st0 5, 51); (9, st0 9, 90)]%nat in
  (forall r, In r h -> iteration_of r <> 1%nat) /\ latest 5 h (st0 5) 51%nat.
Proof.
  cbv zeta. split; [intros r [<-|[<-|[<-|[<-|[]]]]]; discriminate|].
  exists [(5, st0 5, 50); (7, st0 7, 70)]%nat, [(9, st0 9, 90)]%nat. split; [reflexivity|]. intros r [<-|[]]; discriminate.
Qed.

(** C23. Full statement (refuted): stencils accepted by the solver can be restarted. *)
Theorem C23_stencil_refuted : exists dim c q t run, selectCollision dim true t c q = (run, false) /\ run <> [] /\ restartable t = false.
Proof. exact restart_stencil_bad. Qed.
Print Assumptions C23_stencil_refuted.

(** For these stencils every restart throws, whatever the directory. *)
Theorem C23_never_loads : forall D (dir : directory D) n t order, restartable t = false -> load n t order dir = Throw.
Proof. exact @load_throws'. Qed.
Print Assumptions C23_never_loads.

(** C23, what holds: all other stencils can be restarted from a checkpoint just written.
    Missing: D3Q77, D2Q19V, D2Q19H, D2Q777. *)
Theorem C23_restartable_partial : forall D n st (d : D) dir t, restartable t = true -> n <> 1%nat ->
  exists dir', save n st d dir = Ok dir' /\ load n t (cs_order st) dir' = Ok (printed st, d).
Proof. exact @load_saved. Qed.
Print Assumptions C23_restartable_partial.

Example C23_nonvacuous : restartable Stencil_D3Q45 = true /\ restartable Stencil_D3Q77 = false.
Proof. split; reflexivity. Qed.

(** C24. Full statement (refuted for the budget): with budget m the procedure may make
    m + 1 passes. *)
Theorem C24_budget_refuted : forall m, exists (o : solver_ops R R) c s s' n,
  rc_init c = ITERATIVE /\ rc_init_steps c = m /\ 0 < rc_init_residual c /\
  initializeDistributions c o (m + 2) s = Some (s', n) /\ (rc_init_steps c < n)%nat.
Proof. exact init_budget_bad. Qed.
Print Assumptions C24_budget_refuted.

(** The compressible procedure makes all passes although every residual is below the target. *)
Theorem C24_compressible_refuted : forall m, exists (o : solver_ops R R) c s s' n,
  rc_init c = COMPRESSIBLE_ITERATIVE /\ rc_init_steps c = m /\ 0 < rc_init_residual c /\
  initializeDistributions_compressible c o s = Ok (s', n) /\
  (forall k, (0 < k)%nat -> init_residual c o k (set_x s (so_set_equilibrium o (sv_x s))) < rc_init_residual c) /\ n = m.
Proof. exact init_residual_ignored. Qed.
Print Assumptions C24_compressible_refuted.

(** C24, what holds: at most one pass more than the budget; it stops after the first pass
    whose residual is at most the target; iteration counters and time are unchanged.
    Missing: the budget itself. *)
Theorem C24_initialization_partial : forall X D (c : run_config) (o : solver_ops X D) fuel s s' n, rc_init c = ITERATIVE ->
  initializeDistributions c o fuel s = Some (s', n) ->
  let s0 := set_x s (so_set_equilibrium o (sv_x s)) in
  (n <= rc_init_steps c + 1)%nat /\
  (init_residual c o n s0 <= rc_init_residual c \/ n = (rc_init_steps c + 1)%nat) /\
  (forall j, (j < n)%nat -> rc_init_residual c < init_residual c o j s0) /\
  sv_x s' = sv_x (init_states c o n s0) /\
  sv_i s' = sv_i s /\ sv_start s' = sv_start s /\ sv_time s' = sv_time s.
Proof. exact @initialization_ok. Qed.
Print Assumptions C24_initialization_partial.

Theorem C24_initialization_ends : forall X D (c : run_config) (o : solver_ops X D) s,
  initializeDistributions c o (rc_init_steps c + 2) s <> None.
Proof. exact @initialization_ends. Qed.
Print Assumptions C24_initialization_ends.

Theorem C24_compressible_partial : forall X D (c : run_config) (o : solver_ops X D) s s' n, rc_init c = COMPRESSIBLE_ITERATIVE ->
  initializeDistributions_compressible c o s = Ok (s', n) ->
  n = rc_init_steps c /\
  sv_x s' = sv_x (init_states c o (rc_init_steps c) (set_x s (so_set_equilibrium o (sv_x s)))) /\
  sv_i s' = sv_i s /\ sv_start s' = sv_start s /\ sv_time s' = sv_time s.
Proof. exact @initialization_compressible_ok. Qed.
Print Assumptions C24_compressible_partial.

Example C24_nonvacuous : exists s', initializeDistributions (t_c false ITERATIVE (1/10) 7) (t_ops (fun x => x / 2)) 9 (fresh 1 1) = Some (s', 2%nat).
Proof. exact init_example. Qed.

(** C25. The convergence criterion is evaluated at the multiples of 100; the reported
    residual is the largest difference (over nodes) to the velocity field of the previous
    evaluation, 100 iterations earlier.  The first evaluation of a run reports the residual
    the solver started with. *)
Theorem C25_residual : forall X D (c : run_config) (o : solver_ops X D) fuel s0 s tr,
  so_nodes o <> [] -> run c o fuel s0 = Some (Ok (s, tr)) ->
  (forall i u r i' u' r', consecutive (residuals_of tr) (i, u, r) (i', u', r') ->
     i' = (i + 100)%nat /\ max_distance (so_nodes o) (so_dim o) u u' r') /\
  (forall i u r, In (i, u, r) (residuals_of tr) -> (i mod 100 = 0)%nat /\ (sv_start s0 <= i <= sv_i s)%nat) /\
  (forall i u r l, residuals_of tr = (i, u, r) :: l -> r = sv_res_u s0 /\ (i < sv_start s0 + 100)%nat).
Proof. exact @run_residuals. Qed.
Print Assumptions C25_residual.

(** C25. The compared fields are the velocity fields of their iterations. *)
Theorem C25_fields : forall X D (c : run_config) (o : solver_ops X D) fuel s0 s tr,
  constant_step c o -> rc_compressible c = false -> run c o fuel s0 = Some (Ok (s, tr)) ->
  exists y, so_collide o (sv_x s0) = Ok y /\
    forall i u r, In (i, u, r) (residuals_of tr) ->
      exists x, evolve c o (i - sv_start s0) (sv_start s0) (sv_time s0) (sv_dt s0) y = Ok x /\ u = so_velocity o x.
Proof. exact @residual_fields. Qed.
Print Assumptions C25_fields.

Example C25_nonvacuous : so_nodes w_ops <> [] /\ constant_step (w_c 250 1) w_ops /\
  exists s tr, run (w_c 250 1) w_ops 251 (fresh w_x0 1) = Some (Ok (s, tr)) /\ sv_i s = 250%nat.
Proof. split; [discriminate|split; [left; reflexivity|exact (w_run 250 ltac:(lia))]]. Qed.
