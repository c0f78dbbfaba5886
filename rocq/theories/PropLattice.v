(** C130 (grid-aligned semi-Lagrangian runs are lattice Boltzmann runs), C131 (their balances). *)
From Verif Require Import Prelude BigSum ModelStencils SpecStencils ModelConfigNames ModelEquilibria ModelCollision ModelRun ModelCheckpoint ModelSemiLagrangian ModelSEDG ModelWalls ModelSimulationSL
  SpecCollision SpecSetup SpecRun SpecSimulation SpecSemiLagrangian SpecSEDG SpecLattice ProofPhysical ProofRestart2 ProofSEDGMesh ProofSimulationEx ProofSemiLagrangian ProofSemiLagrangian5 ProofLattice ProofLattice2 ProofLattice3.
Local Open Scope R_scope.

(** ** C130: streaming moves every population by its number of lattice spacings, exactly; nothing is interpolated. *)
Theorem C130_shift : forall D p N h plane e opp dt Q n g shape dofs cells m, lattice_mesh D p N h e dt Q n g shape dofs cells m ->
  exists z, assemble (torus D N h plane) e opp dt n (fun j i => INR (g j i) / INR p) dofs Q shape cells = Some (Ok z) /\
  forall f L, holds D p N n g dofs f (lf L) -> holds D p N n g dofs (sl_stream Q z f) (lf (lb_stream Q m L)).
Proof. exact aligned_shift. Qed.
Print Assumptions C130_shift.
(** Bilinear elements on 2 x 2 cells with nine degrees of freedom (those of opposite boundaries have different numbers), D2Q9, time step 1. *)
Example C130_shift_ex : lattice_mesh 2 1 (fun _ => 2%Z) (fun _ => 1) (st_e S9) 1 9 4 g22 bilinear dofs22 grid22 e9z.
Proof. exact lattice22. Qed.

(** A whole run is a run of the lattice Boltzmann method: whatever collision, equilibrium and force, the state after [t] iterations and the
    data of the checkpoints are the lattice after one collision and [t] times streaming and collision. *)
Theorem C130_run : forall D p N h plane e opp dt n g shape dofs cells m k q gd st scaling nodes filt c z,
  lattice_mesh D p N h e dt (st_Q st) n g shape dofs cells m -> NoDup nodes -> (forall cl j, In cl cells -> (j < n)%nat -> In (dofs cl j) nodes) ->
  rc_semi_lagrangian c = true -> rc_filtering c = false -> rc_compressible c = false ->
  assemble (torus D N h plane) e opp dt n (fun j i => INR (g j i) / INR p) dofs (st_Q st) shape cells = Some (Ok z) ->
  forall fuel s0 s1 tr L0, run c (sl_ops k q gd st scaling nodes z filt) fuel s0 = Some (Ok (s1, tr)) -> holds_fields D p N n g dofs (sv_x s0) L0 ->
    holds_fields D p N n g dofs (sv_x s1) (lb_run k q gd (st_Q st) m (sv_i s1 - sv_start s0) L0) /\
    forall i stat d, In (EvCheckpoint i stat d) tr -> holds D p N n g dofs d (lf (lb_run k q gd (st_Q st) m (i - sv_start s0) L0)).
Proof. exact lattice_run_holds. Qed.
Print Assumptions C130_run.
Example C130_run_ex : NoDup nine /\ (forall cl j, In cl grid22 -> (j < 4)%nat -> In (dofs22 cl j) nine) /\
  (exists z s1 tr, assemble torus22 (st_e S9) (opposite S9) 1 4 (fun j i => INR (g22 j i) / INR 1) dofs22 9 bilinear grid22 = Some (Ok z) /\
     run (sl_c 3) (slide_ops z) 4 (fresh {| fl_f := fun _ => rest; fl_rho := fun _ => 1; fl_u := fun _ _ => 0 |} 1) = Some (Ok (s1, tr)) /\ sv_i s1 = 3%nat) /\
  holds_fields 2 1 (fun _ => 2%Z) 4 g22 dofs22 {| fl_f := fun _ => rest; fl_rho := fun _ => 1; fl_u := fun _ _ => 0 |} {| lf := fun _ => rest; lu := fun _ _ => 0 |}.
Proof. split; [exact nine_nodup|]. split; [exact nine_all|]. split; [apply slide_run; lia|]. repeat split; intros; reflexivity. Qed.

(** ** C131: over such a run the total mass is the initial one, and the total momentum grows by one kick of the force at each site and collision. *)
Theorem C131_totals : forall D p N h plane e opp dt n g shape dofs cells m k q cfg force t scaling nu nodes filt c z,
  let st := stencil_of t scaling in
  lattice_mesh D p N h e dt (st_Q st) n g shape dofs cells m -> NoDup nodes -> (forall cl j, In cl cells -> (j < n)%nat -> In (dofs cl j) nodes) ->
  closed_form t = true -> valid_setup cfg scaling nu dt -> carries_momentum q = true -> force_handled cfg force ->
  rc_semi_lagrangian c = true -> rc_filtering c = false -> rc_compressible c = false ->
  assemble (torus D N h plane) e opp dt n (fun j i => INR (g j i) / INR p) dofs (st_Q st) shape cells = Some (Ok z) ->
  let over := over_sites p N D in let tau := nu / (dt * st_cs2 st) + 1/2 in
  forall fuel s0 s1 tr F0 U0 F1, run c (sl_ops k q (make_genData cfg force st scaling nu dt) st scaling nodes z filt) fuel s0 = Some (Ok (s1, tr)) ->
    holds D p N n g dofs (fl_f (sv_x s0)) F0 -> holds D p N n g dofs (fl_u (sv_x s0)) U0 -> holds D p N n g dofs (fl_f (sv_x s1)) F1 ->
    over (fun x => mass st (F1 x)) = over (fun x => mass st (F0 x)) /\
    forall a, (a < st_D st)%nat -> over (fun x => momentum st (F1 x) a)
      = over (fun x => momentum st (F0 x) a) + (INR (sv_i s1 - sv_start s0) + 1) * (kick k cfg tau dt force a * over (fun _ => 1)).
Proof. exact lattice_totals. Qed.
Print Assumptions C131_totals.
(** The run of [C130_run_ex] with its four sites and a unit force. *)
Example C131_totals_ex : valid_setup pushed 1 1 1 /\ force_handled pushed (Some unitF) /\ over_sites 1 (fun _ => 2%Z) 2 (fun _ => 1) = 4 /\
  kick BGKCollision pushed (1 / (1 * st_cs2 S9) + 1 / 2) 1 (Some unitF) 0 = 1 /\ over_sites 1 (fun _ => 2%Z) 2 (fun _ => mass S9 rest) = 4.
Proof.
  split; [exact (wsetup _ _ _)|]. split; [split; [discriminate|right; reflexivity]|]. unfold over_sites, period. change (Z.to_nat (Z.of_nat 1 * 2)) with 2%nat. cbn [sumf].
  split; [ring|]. split; [cbn [kick pushed wcfg cc_forcing]; unfold unitF; cbn; ring|]. unfold mass. cbn. ring.
Qed.
