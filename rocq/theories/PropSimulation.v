(** C127-C129: whole simulations with the discontinuous Galerkin scheme and the Runge-Kutta integrator: time loop, collision,
    streaming and boundaries together. *)
From Verif Require Import Prelude BigSum ModelStencils SpecStencils ModelConfigNames ModelEquilibria ModelCollision ModelRun ModelCheckpoint ModelSemiLagrangian ModelSEDG
  ModelTimeIntegration ModelSimulation SpecCollision SpecSetup SpecCheckpoint SpecRun SpecSEDG SpecSimulation ProofCollideNode ProofFixed ProofForces ProofPhysical ProofRestart2 ProofSEDGStencil ProofSEDGMesh ProofSEDGWitness
  ProofSimulation ProofSimulation2 ProofSimulationEx.
Local Open Scope R_scope.

(** ** C127: the mass at every checkpoint and at the end of a run is the initial mass less what the walls displaced. *)
Theorem C127_mass : forall (cell : Type) (S : space cell) qn fd t scaling velocity cells N s k q cfg force nu dt nodes filt c,
  sp_dim S = st_D (stencil_of t scaling) -> closed_form t = true -> good_mesh S qn fd cells -> supported S velocity cells -> numbers S cells N ->
  reassemble S (stencil_of t scaling) false velocity cells empty_system = Ok s ->
  valid_setup cfg scaling nu dt -> carries_momentum q = true -> force_handled cfg force ->
  NoDup nodes -> (forall n, (n < N)%nat -> In n nodes) ->
  rc_semi_lagrangian c = false -> rc_filtering c = false -> rc_compressible c = false ->
  let st := stencil_of t scaling in let content := content S qn cells in
  exists cst, Rabs (cst - 1) <= / 100000000000000000000 /\ forall fuel s0 s1 tr, sv_dt s0 = dt ->
    run c (dg_ops k q (make_genData cfg force st scaling nu dt) st scaling nodes N s filt) fuel s0 = Some (Ok (s1, tr)) ->
    content (fun n => mass st (fl_f (sv_x s1) n)) = content (fun n => mass st (fl_f (sv_x s0) n)) - INR (sv_i s1 - sv_start s0) * (cst * dt * wall_flux S velocity cells) /\
    forall m stat d, In (EvCheckpoint m stat d) tr ->
      content (fun n => mass st (d n)) = content (fun n => mass st (fl_f (sv_x s0) n)) - INR (m - sv_start s0) * (cst * dt * wall_flux S velocity cells).
Proof. exact @whole_mass. Qed.
Print Assumptions C127_mass.
(** Exactly conserved without walls, and with walls that do not displace fluid. *)
Theorem C127_closed : forall (cell : Type) (S : space cell) qn fd t scaling velocity cells N s k q cfg force nu dt nodes filt c,
  sp_dim S = st_D (stencil_of t scaling) -> closed_form t = true -> good_mesh S qn fd cells -> supported S velocity cells -> numbers S cells N ->
  reassemble S (stencil_of t scaling) false velocity cells empty_system = Ok s ->
  valid_setup cfg scaling nu dt -> carries_momentum q = true -> force_handled cfg force ->
  NoDup nodes -> (forall n, (n < N)%nat -> In n nodes) ->
  rc_semi_lagrangian c = false -> rc_filtering c = false -> rc_compressible c = false ->
  no_walls S cells \/ resting_walls S velocity cells ->
  let st := stencil_of t scaling in let content := content S qn cells in
  forall fuel s0 s1 tr, sv_dt s0 = dt ->
    run c (dg_ops k q (make_genData cfg force st scaling nu dt) st scaling nodes N s filt) fuel s0 = Some (Ok (s1, tr)) ->
    content (fun n => mass st (fl_f (sv_x s1) n)) = content (fun n => mass st (fl_f (sv_x s0) n)) /\
    forall m stat d, In (EvCheckpoint m stat d) tr -> content (fun n => mass st (d n)) = content (fun n => mass st (fl_f (sv_x s0) n)).
Proof. exact @closed_mass. Qed.
Print Assumptions C127_closed.
(** A run of 3 iterations on 2 periodic cells, pushed by a force. *)
Example C127_ex : good_mesh (strip false) (fun i => i) strip_fd two /\ no_walls (strip false) two /\ numbers (strip false) two 8 /\
  valid_setup pushed 1 1 1 /\ force_handled pushed (Some unitF) /\ NoDup eight /\ (forall n, (n < 8)%nat -> In n eight) /\
  exists s s1 tr, reassemble (strip false) (stencil_of Stencil_D2Q9 1) false still two empty_system = Ok s /\
    run (dg_c 3) (push_ops s) 4 (fresh {| fl_f := fun _ => rest; fl_rho := fun _ => 1; fl_u := fun _ _ => 0 |} 1) = Some (Ok (s1, tr)) /\ sv_i s1 = 3%nat.
Proof.
  split; [apply strip_good|]. split; [exact strip_periodic|]. split; [apply strip_numbers|]. split; [apply wsetup|]. split; [split; [discriminate|right; reflexivity]|].
  split; [exact eight_nodup|]. split; [intros n; apply eight_all|apply (push_run 3); lia].
Qed.
(** Walls that displace fluid. *)
Example C127_walls_ex : good_mesh (strip true) (fun i => i) strip_fd two /\ supported (strip true) blowing two /\ numbers (strip true) two 8 /\ wall_flux (strip true) blowing two = -2.
Proof. split; [apply strip_good|]. split; [apply strip_supported; discriminate|]. split; [apply strip_numbers|exact blowing_flux]. Qed.

(** ** C128: on a periodic domain the momentum is the initial one plus one kick for each collision: one more than time steps. *)
Theorem C128_momentum : forall (cell : Type) (S : space cell) qn fd t scaling velocity cells N s k q cfg force nu dt nodes filt c,
  sp_dim S = st_D (stencil_of t scaling) -> closed_form t = true -> good_mesh S qn fd cells -> no_walls S cells -> numbers S cells N ->
  reassemble S (stencil_of t scaling) false velocity cells empty_system = Ok s ->
  valid_setup cfg scaling nu dt -> carries_momentum q = true -> force_handled cfg force ->
  NoDup nodes -> (forall n, (n < N)%nat -> In n nodes) ->
  rc_semi_lagrangian c = false -> rc_filtering c = false -> rc_compressible c = false ->
  let st := stencil_of t scaling in let content := content S qn cells in let tau := nu / (dt * st_cs2 st) + 1/2 in
  forall fuel s0 s1 tr, sv_dt s0 = dt ->
    run c (dg_ops k q (make_genData cfg force st scaling nu dt) st scaling nodes N s filt) fuel s0 = Some (Ok (s1, tr)) -> forall a, (a < st_D st)%nat ->
    content (fun n => momentum st (fl_f (sv_x s1) n) a)
    = content (fun n => momentum st (fl_f (sv_x s0) n) a) + (INR (sv_i s1 - sv_start s0) + 1) * (kick k cfg tau dt force a * content (fun _ => 1)) /\
    forall m stat d, In (EvCheckpoint m stat d) tr ->
      content (fun n => momentum st (d n) a)
      = content (fun n => momentum st (fl_f (sv_x s0) n) a) + (INR (m - sv_start s0) + 1) * (kick k cfg tau dt force a * content (fun _ => 1)).
Proof. exact @whole_momentum. Qed.
Print Assumptions C128_momentum.
Example C128_momentum_ex : kick BGKCollision pushed 2 1 (Some unitF) 0 = 1 /\ content (strip false) (fun i => i) two (fun _ => 1) = 2 /\
  exists s s1 tr, reassemble (strip false) (stencil_of Stencil_D2Q9 1) false still two empty_system = Ok s /\
    run (dg_c 3) (push_ops s) 4 (fresh {| fl_f := fun _ => rest; fl_rho := fun _ => 1; fl_u := fun _ _ => 0 |} 1) = Some (Ok (s1, tr)) /\ sv_i s1 = 3%nat.
Proof. split; [cbn; ring|]. split; [apply strip_volume|apply (push_run 3); lia]. Qed.
(** Full statement (refuted): a force F adds the momentum F times volume times elapsed time. *)
Theorem C128_elapsed_refuted : exists s s1 tr x0, let st := stencil_of Stencil_D2Q9 1 in let content := content (strip false) (fun i => i) two in
  reassemble (strip false) st false still two empty_system = Ok s /\ run (dg_c 1) (push_ops s) 2 (fresh x0 1) = Some (Ok (s1, tr)) /\ sv_time s1 = 1 /\
  content (fun n => momentum st (fl_f (sv_x s1) n) 0) <> content (fun n => momentum st (fl_f x0 n) 0) + sv_time s1 * (unitF 0 * content (fun _ => 1)).
Proof. exact one_kick_more. Qed.
Print Assumptions C128_elapsed_refuted.
(** A run that is interrupted at a checkpoint and restarted from it gains the kick of yet another collision. *)
Theorem C128_restarted : forall (cell : Type) (S : space cell) qn fd t scaling velocity cells N s k q cfg force nu dt nodes filt c,
  sp_dim S = st_D (stencil_of t scaling) -> closed_form t = true -> good_mesh S qn fd cells -> no_walls S cells -> numbers S cells N ->
  reassemble S (stencil_of t scaling) false velocity cells empty_system = Ok s ->
  valid_setup cfg scaling nu dt -> carries_momentum q = true -> force_handled cfg force ->
  NoDup nodes -> (forall n, (n < N)%nat -> In n nodes) ->
  rc_semi_lagrangian c = false -> rc_filtering c = false -> rc_compressible c = false ->
  let st := stencil_of t scaling in let content := content S qn cells in let tau := nu / (dt * st_cs2 st) + 1/2 in
  let o := dg_ops k q (make_genData cfg force st scaling nu dt) st scaling nodes N s filt in
  forall fuel x0 s1 tr m stat d fuel' s2 tr',
    run c o fuel (fresh x0 dt) = Some (Ok (s1, tr)) -> In (EvCheckpoint m stat d) tr ->
    run c o fuel' (restarted (printed stat) (restored_fields st d) dt) = Some (Ok (s2, tr')) -> forall a, (a < st_D st)%nat ->
    content (fun n => momentum st (fl_f (sv_x s2) n) a)
    = content (fun n => momentum st (fl_f x0 n) a) + (INR (sv_i s2) + 2) * (kick k cfg tau dt force a * content (fun _ => 1)).
Proof. exact @restarted_momentum. Qed.
Print Assumptions C128_restarted.
Example C128_restarted_ex : exists s s1 tr m stat d, reassemble (strip false) (stencil_of Stencil_D2Q9 1) false still two empty_system = Ok s /\
    run (dg_c 3) (push_ops s) 4 (fresh {| fl_f := fun _ => rest; fl_rho := fun _ => 1; fl_u := fun _ _ => 0 |} 1) = Some (Ok (s1, tr)) /\ In (EvCheckpoint m stat d) tr /\
    exists s2 tr', run (dg_c 3) (push_ops s) 4 (restarted (printed stat) (restored_fields (stencil_of Stencil_D2Q9 1) d) 1) = Some (Ok (s2, tr')).
Proof. exact push_restart. Qed.

(** ** C129: a fluid in uniform motion stays in uniform motion: the run succeeds, and density, velocity and populations are the initial ones. *)
Theorem C129_uniform : forall (cell : Type) (S : space cell) qn fd t scaling velocity cells N s k q cfg nu dt nodes filt c rho v E s0,
  sp_dim S = st_D (stencil_of t scaling) -> closed_form t = true -> good_mesh S qn fd cells -> supported S velocity cells -> numbers S cells N ->
  let st := stencil_of t scaling in
  reassemble S st false velocity cells empty_system = Ok s ->
  valid_setup cfg scaling nu dt -> carries_momentum q = true -> runs_on k t cfg = true ->
  NoDup nodes -> (forall n, In n nodes <-> (n < N)%nat) -> (0 < N)%nat ->
  1 / 10 ^ 10 < rho -> equilibrium_populations q cfg st scaling rho v 1 E ->
  (forall cl f b u p a, In cl cells -> (f < faces_per_cell S)%nat -> (p < n_face_points S)%nat -> (1 <= a < st_Q st)%nat ->
     at_face S cl f = Outside b -> velocity b = Some u -> E a - E (opposite st a) = wall_shift S st (u (face_point S cl f p)) a) ->
  let uniform f := forall n i, (n < N)%nat -> (i < st_Q st)%nat -> f n i = E i in
  (forall f, uniform f -> uniform (filt f)) ->
  valid_intervals c -> rc_compressible c = false -> sv_dt s0 = dt -> uniform (fl_f (sv_x s0)) ->
  exists s1 tr, run c (dg_ops k q (make_genData cfg None st scaling nu dt) st scaling nodes N s filt) (Datatypes.S (rc_steps c - sv_start s0)) s0 = Some (Ok (s1, tr)) /\
    uniform (fl_f (sv_x s1)) /\ (forall n, (n < N)%nat -> fl_rho (sv_x s1) n = rho /\ forall a, (a < st_D st)%nat -> fl_u (sv_x s1) n a = v a) /\
    forall m stat d, In (EvCheckpoint m stat d) tr -> uniform d.
Proof. exact @whole_uniform. Qed.
Print Assumptions C129_uniform.
(** Density 1 moving with its walls; and at any density without walls. *)
Example C129_ex : exists E, equilibrium_populations BGKEquilibrium pushed (stencil_of Stencil_D2Q9 1) 1 1 (fun a => match a with O => 1 | _ => 0 end) 1 E /\
  forall cl f b u p a, In cl two -> (f < 4)%nat -> (p < 2)%nat -> (1 <= a < 9)%nat ->
     at_face (strip true) cl f = Outside b -> sliding 1 b = Some u -> E a - E (opposite S9 a) = wall_shift (strip true) S9 (u (face_point (strip true) cl f p)) a.
Proof. exact moving_example. Qed.
