(** C136-C138: the compressible solver: restart, conservation over whole runs, initial state. *)
From Verif Require Import Prelude BigSum ModelConfigNames ModelStencils SpecStencils ModelEquilibria ModelCollision ModelRun ModelCheckpoint ModelSemiLagrangian ModelSEDG ModelTimeIntegration
  ModelSimulation ModelCompressible SpecCollision SpecSetup SpecCheckpoint SpecRun SpecSEDG SpecSimulation SpecNear SpecCompressible ProofCompressible ProofSEDGMesh ProofSimulationEx
  ProofCompressibleRun ProofCompressibleRun2 ProofCompressibleRun3 ProofCompressibleUniform ProofCompressibleRestart ProofCompressibleEx.
Local Open Scope R_scope.

(** ** C136: continuing a compressible simulation from a checkpoint *)
(** The checkpoint holds f; g is made up from f.  Energy of a node after the restart, compared with the energy it had with its own g. *)
Theorem C136_energy : forall t s gamma f g, s <> 0 -> gamma <> 1 -> let st := stencil_of t s in mass st f <> 0 ->
  energy2 st f (restored_g gamma st s f) - energy2 st f g =
    st_cs2 st * (mass st f * (random_motion st f + (mass st f - 1) * (mass st f - 1) * dot (st_D st) (bulk st f) (bulk st f) / (INR (st_D st) * st_cs2 st)) * (2 / (gamma - 1) - INR (st_D st)) - mass st g).
Proof. exact restored_energy. Qed.
Print Assumptions C136_energy.
Example C136_energy_ex : mass S25 (fg_f (initialize (7/5) S25 1 [0%nat] (still_gas 2 1 1)) 0%nat) = 2.
Proof. exact (proj1 (initial_state Stencil_D2Q25H 1 (7/5) [0%nat] (still_gas 2 1 1) 0%nat d25_6 ltac:(lra) ltac:(lra) (or_introl eq_refl))). Qed.
(** The energy is carried over if g has the temperature of the random motion of f and the density is 1, the node is at rest or there is no energy in g. *)
Theorem C136_exact : forall t s gamma f, s <> 0 -> gamma <> 1 -> let st := stencil_of t s in mass st f <> 0 -> forall g,
  mass st g = mass st f * random_motion st f * (2 * (1 / (gamma - 1)) - INR (st_D st)) ->
  mass st f = 1 \/ dot (st_D st) (bulk st f) (bulk st f) = 0 \/ 2 * (1 / (gamma - 1)) = INR (st_D st) -> energy2 st f (restored_g gamma st s f) = energy2 st f g.
Proof. exact restored_exact. Qed.
Print Assumptions C136_exact.
(** Nodes in equilibrium: the error of the energy. *)
Theorem C136_equilibrium : forall t s gamma nodes x n, order6 t -> s <> 0 -> gamma <> 1 -> In n nodes -> fg_rho x n <> 0 ->
  let st := stencil_of t s in let y := initialize gamma st s nodes x in
  energy2 st (fg_f y n) (restored_g gamma st s (fg_f y n)) - energy2 st (fg_f y n) (fg_g y n) =
    (2 / (gamma - 1) - INR (st_D st)) / INR (st_D st) * fg_rho x n * (fg_rho x n - 1) ^ 2 * dot (st_D st) (fg_u x n) (fg_u x n).
Proof. exact restored_equilibrium. Qed.
Print Assumptions C136_equilibrium.
Example C136_equilibrium_ex : order6 Stencil_D2Q25H /\ fg_rho (still_gas 2 1 1) 0%nat = 2.
Proof. split; [exact d25_6|reflexivity]. Qed.
(** Full statement (refuted): the energy is the one of the interrupted simulation.  Not at density 2 and velocity 1; and not if the temperature of g is another one. *)
Theorem C136_density_refuted : exists gamma x, let y := initialize gamma S25 1 [0%nat] x in
  energy2 S25 (fg_f y 0%nat) (restored_g gamma S25 1 (fg_f y 0%nat)) = energy2 S25 (fg_f y 0%nat) (fg_g y 0%nat) + 3.
Proof. exact (ex_intro _ (7/5) (ex_intro _ (still_gas 2 1 1) dense_gas_energy)). Qed.
Print Assumptions C136_density_refuted.
Theorem C136_internal_refuted : exists gamma x g, let y := initialize gamma S25 1 [0%nat] x in
  fg_rho x 0%nat = 1 /\ (forall a, fg_u x 0%nat a = 0) /\ energy2 S25 (fg_f y 0%nat) (restored_g gamma S25 1 (fg_f y 0%nat)) <> energy2 S25 (fg_f y 0%nat) g.
Proof. exact hidden_exists. Qed.
Print Assumptions C136_internal_refuted.

(** The fields density, velocity and temperature that the constructor leaves behind, against what the populations carry. *)
Theorem C136_fields : forall t s gamma known nodes f, s <> 0 -> gamma <> 1 -> let st := stencil_of t s in forall x,
  nodes <> [] -> restored_fields_g gamma st s known nodes f = Ok x -> forall n, mass st (f n) <> 0 ->
  let T := random_motion st (f n) + (2 * (1 / (gamma - 1)) - INR (st_D st)) / (2 * (1 / (gamma - 1))) * ((mass st (f n) - 1) * (mass st (f n) - 1) * dot (st_D st) (bulk st (f n)) (bulk st (f n))) / (INR (st_D st) * st_cs2 st) in
  fg_f x n = f n /\ fg_rho x n = mass st (f n) /\ (forall a, fg_u x n a = 0) /\
  fg_T x n = T + dot (st_D st) (bulk st (f n)) (bulk st (f n)) / (2 * (st_cs2 st / (gamma - 1))) /\
  carries st gamma (fg_f x n) (fg_g x n) (mass st (f n)) (bulk st (f n)) T.
Proof. exact restored_values. Qed.
Print Assumptions C136_fields.
(** Full statement (refuted): the restored velocity and temperature are those of the populations.  A gas with density 1, momentum 1 and temperature 1. *)
Theorem C136_fields_refuted : exists x, let f := fg_f (initialize (7/5) S25 1 eight (still_gas 1 1 1)) in
  restored_fields_g (7/5) S25 1 (fun _ => true) eight f = Ok x /\
  forall n, (n < 8)%nat -> mass S25 (f n) = 1 /\ momentum S25 (f n) 0 = 1 /\ fg_rho x n = 1 /\ (forall a, fg_u x n a = 0) /\ fg_T x n = 1 + 1 / (5 * st_cs2 S25).
Proof. exact moving_restored. Qed.
Print Assumptions C136_fields_refuted.

(** The constructor succeeds on a process with at least one node if and only if it knows the degrees of freedom with the numbers of the directions. *)
Theorem C136_ranks : forall t s gamma known nodes f, let st := stencil_of t s in nodes <> [] ->
  ((exists x, restored_fields_g gamma st s known nodes f = Ok x) <-> forall i, (i < st_Q st)%nat -> known i = true) /\
  ((exists i, (i < st_Q st)%nat /\ known i = false) -> restored_fields_g gamma st s known nodes f = Throw).
Proof. exact restored_runs. Qed.
Print Assumptions C136_ranks.
(** Full statement (refuted): every checkpoint can be restarted from.  Not with 8 degrees of freedom and 25 directions, and not on a second process. *)
Theorem C136_small_refuted : exists known nodes, nodes <> [] /\ (forall n, known n = true <-> In n nodes) /\ forall f, restored_fields_g (7/5) S25 1 known nodes f = Throw.
Proof. exact small_throws. Qed.
Print Assumptions C136_small_refuted.
Theorem C136_parallel_refuted : exists known nodes, nodes <> [] /\ (forall n, (90 <= n)%nat -> known n = true) /\ forall f, restored_fields_g (7/5) S25 1 known nodes f = Throw.
Proof. exact parallel_throws. Qed.
Print Assumptions C136_parallel_refuted.

(** Runs continued from iteration 2 or later on a periodic domain: mass and momentum are those of the checkpoint; the energy is the one of the made up g. *)
Theorem C136_continued : forall (cell : Type) (S : space cell) qn fd t scaling velocity cells N s cfg nu dt nodes filt c,
  let st := stencil_of t scaling in let ga := cc_heat_gamma cfg in
  sp_dim S = st_D st -> order6 t -> good_mesh S qn fd cells -> no_walls S cells -> numbers S cells N ->
  reassemble S st false velocity cells empty_system = Ok s -> valid_setup cfg scaling nu dt -> ga <> 1 ->
  NoDup nodes -> (forall n, (n < N)%nat -> In n nodes) -> nodes <> [] -> rc_semi_lagrangian c = false -> rc_filtering c = false -> rc_init c = EQUILIBRIUM ->
  forall known f x stat fuel s1 tr, restored_fields_g ga st scaling known nodes f = Ok x -> (1 < cs_iteration stat)%nat -> (forall n, (n < N)%nat -> mass st (f n) <> 0) ->
  run c (dg_ops_g QuarticEquilibrium (make_genData cfg None st scaling nu dt) ga st scaling nodes N s filt) fuel (restarted stat x dt) = Some (Ok (s1, tr)) ->
  content S qn cells (fg_rho (sv_x s1)) = content S qn cells (fun n => mass st (f n)) /\
  (forall a, (a < st_D st)%nat -> content S qn cells (fun n => fg_rho (sv_x s1) n * fg_u (sv_x s1) n a) = content S qn cells (fun n => momentum st (f n) a)) /\
  content S qn cells (fun n => gas_energy2 st ga (fg_rho (sv_x s1) n) (fg_u (sv_x s1) n) (fg_T (sv_x s1) n))
    = content S qn cells (fun n => energy2 st (f n) (restored_g ga st scaling (f n))).
Proof. exact @continued_run. Qed.
Print Assumptions C136_continued.
(** Full statement (refuted): also from iteration 1.  There run() initialises again, from fields with velocity 0: all momentum is lost. *)
Theorem C136_early : forall (cell : Type) (S : space cell) qn fd t scaling velocity cells N s cfg nu dt nodes filt c,
  let st := stencil_of t scaling in let ga := cc_heat_gamma cfg in
  sp_dim S = st_D st -> order6 t -> good_mesh S qn fd cells -> no_walls S cells -> numbers S cells N ->
  reassemble S st false velocity cells empty_system = Ok s -> valid_setup cfg scaling nu dt -> ga <> 1 ->
  NoDup nodes -> (forall n, (n < N)%nat -> In n nodes) -> nodes <> [] -> rc_semi_lagrangian c = false -> rc_filtering c = false -> rc_init c = EQUILIBRIUM -> rc_compressible c = true ->
  forall known f x stat fuel s1 tr, restored_fields_g ga st scaling known nodes f = Ok x -> (cs_iteration stat <= 1)%nat -> (forall n, (n < N)%nat -> mass st (f n) <> 0) ->
  run c (dg_ops_g QuarticEquilibrium (make_genData cfg None st scaling nu dt) ga st scaling nodes N s filt) fuel (restarted stat x dt) = Some (Ok (s1, tr)) ->
  forall a, (a < st_D st)%nat -> content S qn cells (fun n => fg_rho (sv_x s1) n * fg_u (sv_x s1) n a) = 0.
Proof. exact @continued_early. Qed.
Print Assumptions C136_early.
Theorem C136_early_refuted : exists s x s1 tr, let f := fg_f (initialize (7/5) S25 1 eight (still_gas 1 1 1)) in let content := content (strip false) (fun i => i) two in
  reassemble (strip false) S25 false still two empty_system = Ok s /\ restored_fields_g (7/5) S25 1 (fun _ => true) eight f = Ok x /\
  run (gas_c 3) (gas_ops s) 3 (restarted {| cs_iteration := 1%nat; cs_time := 1; cs_scaling := 1; cs_order := 1%nat |} x 1) = Some (Ok (s1, tr)) /\
  content (fun n => momentum S25 (f n) 0) = 2 /\ content (fun n => fg_rho (sv_x s1) n * fg_u (sv_x s1) n 0%nat) = 0.
Proof. exact moving_early. Qed.
Print Assumptions C136_early_refuted.

(** ** C137: mass, momentum and energy of compressible simulations on periodic domains *)
(** At the end of a run and in every checkpoint the totals are those of the initial density, velocity and temperature. *)
Theorem C137_fresh : forall (cell : Type) (S : space cell) qn fd t scaling velocity cells N,
  let st := stencil_of t scaling in
  sp_dim S = st_D st -> order6 t -> good_mesh S qn fd cells -> supported S velocity cells -> numbers S cells N -> no_walls S cells ->
  forall s, reassemble S st false velocity cells empty_system = Ok s -> forall cfg nu dt, valid_setup cfg scaling nu dt -> let ga := cc_heat_gamma cfg in ga <> 1 ->
  forall nodes filt c, NoDup nodes -> (forall n, (n < N)%nat -> In n nodes) -> rc_semi_lagrangian c = false -> rc_filtering c = false -> rc_init c = EQUILIBRIUM ->
  forall fuel s0 s1 tr, rc_compressible c = true -> (sv_start s0 <= 1)%nat -> sv_dt s0 = dt ->
  run c (dg_ops_g QuarticEquilibrium (make_genData cfg None st scaling nu dt) ga st scaling nodes N s filt) fuel s0 = Some (Ok (s1, tr)) ->
  let content := content S qn cells in let x0 := sv_x s0 in let x := sv_x s1 in
  content (fg_rho x) = content (fg_rho x0) /\
  (forall a, (a < st_D st)%nat -> content (fun n => fg_rho x n * fg_u x n a) = content (fun n => fg_rho x0 n * fg_u x0 n a)) /\
  content (fun n => gas_energy2 st ga (fg_rho x n) (fg_u x n) (fg_T x n)) = content (fun n => gas_energy2 st ga (fg_rho x0 n) (fg_u x0 n) (fg_T x0 n)) /\
  forall m stat d, In (EvCheckpoint m stat d) tr ->
    content (fun n => mass st (fst d n)) = content (fg_rho x0) /\
    (forall a, (a < st_D st)%nat -> content (fun n => momentum st (fst d n) a) = content (fun n => fg_rho x0 n * fg_u x0 n a)) /\
    content (fun n => energy2 st (fst d n) (snd d n)) = content (fun n => gas_energy2 st ga (fg_rho x0 n) (fg_u x0 n) (fg_T x0 n)).
Proof. exact @fresh_run. Qed.
Print Assumptions C137_fresh.
(** The fields after every run are those that the populations carry. *)
Theorem C137_consistent : forall t scaling N, let st := stencil_of t scaling in
  order6 t -> forall (s : system) cfg nu dt, valid_setup cfg scaling nu dt -> let ga := cc_heat_gamma cfg in ga <> 1 ->
  forall nodes filt c, NoDup nodes -> (forall n, (n < N)%nat -> In n nodes) -> rc_filtering c = false -> rc_init c = EQUILIBRIUM ->
  forall fuel s0 s1 tr, sv_dt s0 = dt ->
  run c (dg_ops_g QuarticEquilibrium (make_genData cfg None st scaling nu dt) ga st scaling nodes N s filt) fuel s0 = Some (Ok (s1, tr)) ->
  forall n, (n < N)%nat -> carries st ga (fg_f (sv_x s1) n) (fg_g (sv_x s1) n) (fg_rho (sv_x s1) n) (fg_u (sv_x s1) n) (fg_T (sv_x s1) n).
Proof. exact run_consistent. Qed.
Print Assumptions C137_consistent.
Example C137_ex : good_mesh (strip false) (fun i => i) strip_fd two /\ no_walls (strip false) two /\ numbers (strip false) two 8 /\ order6 Stencil_D2Q25H /\
  valid_setup gas 1 1 1 /\ cc_heat_gamma gas <> 1 /\ NoDup eight /\ (forall n, (n < 8)%nat -> In n eight) /\
  exists s, reassemble (strip false) S25 false still two empty_system = Ok s /\
  exists s1 tr, run (gas_c 3) (gas_ops s) 4 (fresh (still_gas 2 1 1) 1) = Some (Ok (s1, tr)).
Proof.
  split; [apply strip_good|]. split; [exact strip_periodic|]. split; [apply strip_numbers|]. split; [exact d25_6|]. split; [exact gas_setup|]. split; [exact gas_gamma|].
  split; [exact eight_nodup|]. split; [intros n; apply eight_all|].
  destruct (gas_runs 3 2 1 1 (fresh (still_gas 2 1 1) 1) small2 ltac:(cbn; lia) eq_refl (fun n Hn => conj eq_refl (conj (fun a _ => eq_refl) eq_refl))) as (s & Es & s1 & tr & E & _).
  exists s. split; [exact Es|]. exists s1, tr. exact E.
Qed.

(** ** C138: the initial state of the compressible solver *)
(** The populations carry exactly the density, velocity and temperature prescribed. *)
Theorem C138_initial : forall t s gamma nodes x n, order6 t -> s <> 0 -> gamma <> 1 -> In n nodes ->
  let y := initialize gamma (stencil_of t s) s nodes x in
  carries (stencil_of t s) gamma (fg_f y n) (fg_g y n) (fg_rho x n) (fg_u x n) (fg_T x n).
Proof. exact initial_state. Qed.
Print Assumptions C138_initial.
(** On the stencils with literal tables: up to the accuracy of the table. *)
Theorem C138_tolerance : forall t s gamma nodes x n, (6 <= high_order t)%nat -> s <> 0 -> gamma <> 1 -> In n nodes ->
  let st := stencil_of t s in let y := initialize gamma st s nodes x in
  let rho := fg_rho x n in let u := fg_u x n in let T := fg_T x n in
  let N := high_tol t * Rabs rho * expansion_size st u T in
  Rabs (mass st (fg_f y n) - rho) <= N /\
  (forall a, (a < st_D st)%nat -> Rabs (momentum st (fg_f y n) a - rho * u a) <= N * Rabs (st_cs st)) /\
  Rabs (energy2 st (fg_f y n) (fg_g y n) - gas_energy2 st gamma rho u T) <= N * st_cs2 st * (INR (st_D st) + Rabs (T * (2 / (gamma - 1) - INR (st_D st)))).
Proof. exact initial_near. Qed.
Print Assumptions C138_tolerance.
Example C138_ex : order6 Stencil_D2Q25H /\ (6 <= high_order Stencil_D3Q45)%nat /\ In 0%nat eight /\ fg_rho (still_gas 2 1 3) 0%nat = 2.
Proof. split; [exact d25_6|]. split; [cbn; lia|]. split; [left; reflexivity|reflexivity]. Qed.
(** The first collision changes nothing and returns the prescribed fields. *)
Theorem C138_first_collision : forall cfg t s nu dt nodes x n u, order6 t -> valid_setup cfg s nu dt -> cc_heat_gamma cfg <> 1 -> In n nodes -> 1 / 10^10 <= fg_rho x n ->
  let st := stencil_of t s in let y := initialize (cc_heat_gamma cfg) st s nodes x in
  exists o, collide_node_g QuarticEquilibrium (make_genData cfg None st s nu dt) false (fg_f y n) (fg_g y n) u = Ok o /\
    (forall i, (i < st_Q st)%nat -> ng_f o i = fg_f y n i /\ ng_g o i = fg_g y n i) /\
    ng_rho o = fg_rho x n /\ (forall a, (a < st_D st)%nat -> ng_u o a = fg_u x n a) /\ ng_T o = fg_T x n.
Proof. exact first_collision. Qed.
Print Assumptions C138_first_collision.
Example C138_first_collision_ex : valid_setup gas 1 1 1 /\ cc_heat_gamma gas <> 1 /\ 1 / 10^10 <= fg_rho (still_gas 2 1 3) 0%nat.
Proof. split; [exact gas_setup|]. split; [exact gas_gamma|]. left. exact small2. Qed.
(** A gas in uniform motion stays in uniform motion on every periodic domain: the run succeeds and ends with the initial density, velocity and temperature. *)
Theorem C138_uniform : forall (cell : Type) (S : space cell) qn fd t scaling velocity cells N, let st := stencil_of t scaling in
  sp_dim S = st_D st -> order6 t -> good_mesh S qn fd cells -> supported S velocity cells -> numbers S cells N -> no_walls S cells ->
  forall s, reassemble S st false velocity cells empty_system = Ok s -> forall cfg nu dt, valid_setup cfg scaling nu dt -> let ga := cc_heat_gamma cfg in ga <> 1 ->
  forall nodes filt c, NoDup nodes -> (forall n, In n nodes <-> (n < N)%nat) -> (0 < N)%nat -> rc_init c = EQUILIBRIUM ->
  forall rho u T, 1 / 10^10 < rho ->
  (forall h f, (forall n i, (n < N)%nat -> (i < st_Q st)%nat -> f n i = h i) -> (forall n i, (n < N)%nat -> (i < st_Q st)%nat -> filt f n i = h i)) ->
  forall s0, valid_intervals c -> rc_compressible c = true -> (sv_start s0 <= 1)%nat -> sv_dt s0 = dt ->
  (forall n, (n < N)%nat -> fg_rho (sv_x s0) n = rho /\ (forall a, (a < st_D st)%nat -> fg_u (sv_x s0) n a = u a) /\ fg_T (sv_x s0) n = T) ->
  exists s1 tr, run c (dg_ops_g QuarticEquilibrium (make_genData cfg None st scaling nu dt) ga st scaling nodes N s filt) (Datatypes.S (rc_steps c - sv_start s0)) s0 = Some (Ok (s1, tr)) /\
    forall n, (n < N)%nat -> fg_rho (sv_x s1) n = rho /\ (forall a, (a < st_D st)%nat -> fg_u (sv_x s1) n a = u a) /\ fg_T (sv_x s1) n = T.
Proof. exact @gas_run. Qed.
Print Assumptions C138_uniform.
Example C138_uniform_ex : exists s, reassemble (strip false) S25 false still two empty_system = Ok s /\
  exists s1 tr, run (gas_c 3) (gas_ops s) 4 (fresh (still_gas 2 1 1) 1) = Some (Ok (s1, tr)) /\
    forall n, (n < 8)%nat -> fg_rho (sv_x s1) n = 2 /\ (forall a, (a < 2)%nat -> fg_u (sv_x s1) n a = match a with O => 1 | _ => 0 end) /\ fg_T (sv_x s1) n = 1.
Proof. exact (gas_runs 3 2 1 1 (fresh (still_gas 2 1 1) 1) small2 ltac:(cbn; lia) eq_refl (fun n Hn => conj eq_refl (conj (fun a _ => eq_refl) eq_refl))). Qed.
