(** Model of the time loop: /repo/src/library/natrium/solver/CFDSolver.cpp (run,
    stopConditionMet, output, stream, filter), SolverStats.h (calculateResiduals) and
    CompressibleCFDSolver.h (run, compressibleOutput, initializeDistributions).

    The discrete advection operator, the filter, the collision and the data processors
    are parameters ([solver_ops]); everything that decides which of them runs when, on
    what, and what is written out, is modelled.  One MPI rank; time is a real number. *)
From Verif Require Import Prelude ModelConfigNames.
Open Scope R_scope.

(** The settings read by the time loop (SolverConfiguration getters). *)
Record run_config := {
  rc_compressible : bool;        (* CompressibleCFDSolver instead of CFDSolver *)
  rc_semi_lagrangian : bool;     (* getAdvectionScheme() == SEMI_LAGRANGIAN *)
  rc_steps : nat;                (* getNumberOfTimeSteps() *)
  rc_end_time : R;               (* getSimulationEndTime() *)
  rc_threshold : R;              (* getConvergenceThreshold() *)
  rc_output_off : bool;          (* isSwitchOutputOff() *)
  rc_solution_interval : nat;
  rc_table_interval : nat;
  rc_checkpoint_interval : nat;
  rc_filtering : bool;
  rc_filter_interval : nat;
  rc_order : nat;                (* getSedgOrderOfFiniteElement() *)
  rc_init : InitializationSchemeName;
  rc_init_residual : R;          (* getIterativeInitializationResidual() *)
  rc_init_steps : nat            (* getIterativeInitializationNumberOfIterations() *)
}.

Section Solver.
  (** Contents of the distributed vectors (m_f, m_density, m_velocity and, for the
      compressible solver, m_g and m_temperature), and of a checkpoint data file. *)
  Variables (X D : Type).

  (** What the time loop calls. *)
  Record solver_ops := {
    so_nodes : list nat;                 (* locally owned dofs *)
    so_dim : nat;
    so_scaling : R;                      (* m_stencil->getScaling() *)
    so_velocity : X -> nat -> nat -> R;  (* m_velocity: node, component *)
    so_density : X -> nat -> R;
    so_data : X -> D;                    (* what Checkpoint::write saves *)
    so_collide : X -> outcome X;         (* collide() *)
    so_advect : R -> X -> X;             (* semi-Lagrangian: matrix product and boundary
                                            conditions at time m_time *)
    so_integrate : R -> X -> X * R;      (* otherwise: m_timeIntegrator->step, returning the new dt *)
    so_filter : X -> X;
    so_processors : list (X -> X);       (* m_dataProcessors *)
    so_init_collide : X -> X;            (* collision in the initialisation procedure *)
    so_set_equilibrium : X -> X;         (* f (and g) := equilibrium of rho, u (, T) on every owned node *)
    so_add_gradients : X -> X            (* GRADIENTS: adds the non-equilibrium part *)
  }.

  (** Members of CFDSolver that the loop changes. *)
  Record solver := {
    sv_start : nat;                      (* m_iterationStart *)
    sv_i : nat;                          (* m_i *)
    sv_time : R;                         (* m_time *)
    sv_dt : R;                           (* m_timeIntegrator->getTimeStepSize() *)
    sv_x : X;
    sv_tmp_u : nat -> nat -> R;          (* m_tmpVelocity *)
    sv_tmp_rho : nat -> R;
    sv_res_u : R;                        (* m_residuumVelocity *)
    sv_res_rho : R
  }.

  (** Checkpoint.h:28-33. *)
  Record status := { cs_time : R; cs_iteration : nat; cs_scaling : R; cs_order : nat }.

  (** What a run does, in the order in which it does it. *)
  Inductive event :=
  | EvCollide (i : nat)                       (* collide() in iteration i *)
  | EvResidual (i : nat) (u : nat -> nat -> R) (res : R)
                                              (* convergence criterion evaluated: current velocity
                                                 and resulting m_residuumVelocity *)
  | EvOutput (i : nat) (final : bool)         (* output(i, final) *)
  | EvMesh (i : nat)
  | EvSolution (i : nat)                      (* t_*.i.vtu *)
  | EvTable (i : nat)                         (* line in results_table.txt *)
  | EvCheckpoint (i : nat) (st : status) (d : D)   (* Checkpoint(i).write(st, d) *)
  | EvStream (i : nat) (t : R)                (* stream() starting from iteration i at time t *)
  | EvFilter (i : nat).                       (* filter applied in iteration i *)

  Variables (c : run_config) (o : solver_ops).

  Definition set_x (s : solver) (x : X) : solver :=
    {| sv_start := sv_start s; sv_i := sv_i s; sv_time := sv_time s; sv_dt := sv_dt s; sv_x := x;
       sv_tmp_u := sv_tmp_u s; sv_tmp_rho := sv_tmp_rho s; sv_res_u := sv_res_u s; sv_res_rho := sv_res_rho s |}.

  (** CFDSolver.cpp:658-754, CompressibleCFDSolver.h stream() and gStream() (the second
      does not touch time and step size).  The multistep branches (686-719, 728-744) are left out: collide()
      throws for the multistep schemes (C14), so a run never gets there. *)
  Definition stream (s : solver) : solver :=
    if rc_semi_lagrangian c then
      {| sv_start := sv_start s; sv_i := sv_i s; sv_time := sv_time s + sv_dt s; sv_dt := sv_dt s;
         sv_x := so_advect o (sv_time s) (sv_x s);
         sv_tmp_u := sv_tmp_u s; sv_tmp_rho := sv_tmp_rho s; sv_res_u := sv_res_u s; sv_res_rho := sv_res_rho s |}
    else
      let r := so_integrate o (sv_dt s) (sv_x s) in
      {| sv_start := sv_start s; sv_i := sv_i s; sv_time := sv_time s + snd r; sv_dt := snd r; sv_x := fst r;
         sv_tmp_u := sv_tmp_u s; sv_tmp_rho := sv_tmp_rho s; sv_res_u := sv_res_u s; sv_res_rho := sv_res_rho s |}.

  (** [a % b] on size_t; division by zero is undefined. *)
  Definition cmod (a b : nat) : outcome nat := match b with O => UB | _ => Ok (a mod b)%nat end.

  (** CFDSolver.cpp:858-874; CompressibleCFDSolver.h compressibleFilter(). *)
  Definition filter (s : solver) : outcome (solver * list event) :=
    if rc_filtering c then
      obind (cmod (sv_i s) (rc_filter_interval c)) (fun r =>
      if Nat.eqb r 0 then Ok (set_x s (so_filter o (sv_x s)), [EvFilter (sv_i s)]) else Ok (s, []))
    else Ok (s, []).

  (** CFDSolver.cpp:806-843. *)
  Definition collide (s : solver) : outcome (solver * list event) :=
    obind (so_collide o (sv_x s)) (fun x => Ok (set_x s x, [EvCollide (sv_i s)])).

  (** linfty_norm() of a distributed vector. *)
  Definition linfty (nodes : list nat) (g : nat -> R) : R :=
    fold_right (fun n m => Rmax (Rabs (g n)) m) 0 nodes.

  (** SolverStats.h:119-160 (calculateResiduals).  m_i >= m_iterationStart throughout a run,
      so the unsigned subtraction does not wrap. *)
  Definition calculateResiduals (s : solver) : solver :=
    let u := so_velocity o (sv_x s) in
    let rho := so_density o (sv_x s) in
    let old := Nat.ltb (sv_i s - sv_start s) 100 in
    {| sv_start := sv_start s; sv_i := sv_i s; sv_time := sv_time s; sv_dt := sv_dt s; sv_x := sv_x s;
       sv_tmp_u := u; sv_tmp_rho := rho;
       sv_res_u := if old then sv_res_u s
                   else sqrt (linfty (so_nodes o) (fun n => sumf (so_dim o) (fun a => (sv_tmp_u s n a - u n a) * (sv_tmp_u s n a - u n a))));
       sv_res_rho := if old then sv_res_rho s else linfty (so_nodes o) (fun n => sv_tmp_rho s n - rho n) |}.

  (** CFDSolver.cpp:904-946. *)
  Definition stopConditionMet (s : solver) : bool * solver * list event :=
    if Nat.leb (rc_steps c) (sv_i s) then (true, s, [])
    else if Rle_lt_dec (rc_end_time c) (sv_time s) then (true, s, [])
    else if Nat.eqb (sv_i s mod 100) 0 then
      let s' := calculateResiduals s in
      (if Rlt_dec (sv_res_u s') (rc_threshold c) then true else false, s',
       [EvResidual (sv_i s) (so_velocity o (sv_x s)) (sv_res_u s')])
    else (false, s, []).

  (** interval <= 1e8 *)
  Definition switched_on (interval : nat) : bool := if Rle_dec (INR interval) (10^8) then true else false.

  (** CFDSolver.cpp:948-1101; CompressibleCFDSolver.h:436-576, which does not write the
      mesh and writes checkpoints (of f and of g) even if output is switched off.  Console
      output and turbulence statistics are left out. *)
  Definition output (s : solver) (iteration : nat) (is_final : bool) : outcome (list event) :=
    obind
      (if rc_output_off c then Ok []
       else
         let mesh := if (negb (rc_compressible c) && Nat.eqb (iteration - sv_start s) 0)%bool then [EvMesh iteration] else [] in
         obind (cmod iteration (rc_solution_interval c)) (fun r1 =>
         let vtu := if ((Nat.eqb r1 0 && switched_on (rc_solution_interval c)) || is_final)%bool then [EvSolution iteration] else [] in
         obind (cmod iteration (rc_table_interval c)) (fun r2 =>
         let table := if Nat.eqb r2 0 then [EvTable iteration] else [] in
         Ok (mesh ++ vtu ++ table))))
      (fun files =>
    obind
      (if (rc_output_off c && negb (rc_compressible c))%bool then Ok []
       else
         obind (cmod iteration (rc_checkpoint_interval c)) (fun r3 =>
         if ((Nat.eqb r3 0 || is_final) && switched_on (rc_checkpoint_interval c) && negb (Nat.eqb (sv_start s) (sv_i s)))%bool
         then Ok [EvCheckpoint (sv_i s)
                    {| cs_time := sv_time s; cs_iteration := sv_i s; cs_scaling := so_scaling o; cs_order := rc_order c |}
                    (so_data o (sv_x s))]
         else Ok []))
      (fun cp => Ok (EvOutput iteration is_final :: files ++ cp))).

  Definition next_i (s : solver) : solver :=
    {| sv_start := sv_start s; sv_i := S (sv_i s); sv_time := sv_time s; sv_dt := sv_dt s; sv_x := sv_x s;
       sv_tmp_u := sv_tmp_u s; sv_tmp_rho := sv_tmp_rho s; sv_res_u := sv_res_u s; sv_res_rho := sv_res_rho s |}.

  (** One pass of the loop after the stop test: CFDSolver.cpp:884-891, CompressibleCFDSolver.h:1020-1039. *)
  Definition iterate (s : solver) : outcome (solver * list event) :=
    obind (output s (sv_i s) false) (fun ev1 =>
    let s1 := stream (next_i s) in
    obind (filter s1) (fun sf =>
    obind (collide (fst sf)) (fun sc =>
    let s2 := set_x (fst sc) (fold_left (fun x p => p x) (so_processors o) (sv_x (fst sc))) in
    Ok (s2, ev1 ++ [EvStream (sv_i s) (sv_time s)] ++ snd sf ++ snd sc)))).

  (** while (true) of CFDSolver.cpp:880-892; [None] = not finished after [fuel] passes. *)
  Fixpoint loop (fuel : nat) (s : solver) (tr : list event) : option (outcome (solver * list event)) :=
    match fuel with
    | O => None
    | S fuel' =>
        let r := stopConditionMet s in
        if fst (fst r) then Some (Ok (snd (fst r), tr ++ snd r))
        else match iterate (snd (fst r)) with
             | Ok (s', ev) => loop fuel' s' (tr ++ snd r ++ ev)
             | Throw => Some Throw
             | UB => Some UB
             end
    end.

  (** ** Initialisation *)

  (** norm_sqr() of oldDensities - rho. *)
  Definition norm_sqr (nodes : list nat) (g : nat -> R) : R :=
    fold_right (fun n m => g n * g n + m) 0 nodes.

  (** One pass of the initialisation loops: CFDSolver.cpp:1291-1320, CompressibleCFDSolver.h:926-971
      (which streams f only). *)
  Definition init_step (s : solver) : solver :=
    let s1 := stream s in set_x s1 (so_init_collide o (sv_x s1)).

  (** CFDSolver.cpp:1278-1321: the while loop; the result also has the number of passes
      and the last residual.  [None] = not finished after [fuel] passes. *)
  Fixpoint init_loop (fuel loopCount : nat) (residual : R) (s : solver) : option (solver * nat * R) :=
    match fuel with
    | O => None
    | S fuel' =>
        if Rle_lt_dec residual (rc_init_residual c) then Some (s, loopCount, residual)
        else if Nat.ltb (rc_init_steps c) loopCount then Some (s, loopCount, residual)
        else
          let s' := init_step s in
          init_loop fuel' (S loopCount)
            (norm_sqr (so_nodes o) (fun n => so_density o (sv_x s) n - so_density o (sv_x s') n)) s'
    end.

  (** CompressibleCFDSolver.h:924-972: the residual is computed (from the density alone, 965-966)
      but never tested. *)
  Fixpoint init_loop_compressible (n : nat) (s : solver) : solver :=
    match n with O => s | S k => init_loop_compressible k (init_step s) end.

  Definition set_time (s : solver) (t : R) : solver :=
    {| sv_start := sv_start s; sv_i := sv_i s; sv_time := t; sv_dt := sv_dt s; sv_x := sv_x s;
       sv_tmp_u := sv_tmp_u s; sv_tmp_rho := sv_tmp_rho s; sv_res_u := sv_res_u s; sv_res_rho := sv_res_rho s |}.

  (** CFDSolver.cpp:1103-1349 (initializeDistributions).  The result also has the number of passes of
      the iterative procedure. *)
  Definition initializeDistributions (fuel : nat) (s : solver) : option (solver * nat) :=
    let s0 := set_x s (so_set_equilibrium o (sv_x s)) in
    match rc_init c with
    | EQUILIBRIUM | COMPRESSIBLE_ITERATIVE => Some (set_time s0 (sv_time s), O)
    | GRADIENTS => Some (set_time (set_x s0 (so_add_gradients o (sv_x s0))) (sv_time s), O)
    | ITERATIVE => match init_loop fuel 0 1000000000 s0 with
                   | Some (s', n, _) => Some (set_time s' (sv_time s), n)
                   | None => None
                   end
    end.

  (** CompressibleCFDSolver.h:850-1004. *)
  Definition initializeDistributions_compressible (s : solver) : outcome (solver * nat) :=
    let s0 := set_x s (so_set_equilibrium o (sv_x s)) in
    match rc_init c with
    | EQUILIBRIUM => Ok (set_time s0 (sv_time s), O)
    | COMPRESSIBLE_ITERATIVE => Ok (set_time (init_loop_compressible (rc_init_steps c) s0) (sv_time s), rc_init_steps c)
    | _ => Throw
    end.

  (** CFDSolver.cpp:876-902, CompressibleCFDSolver.h:1006-1051. *)
  Definition run (fuel : nat) (s0 : solver) : option (outcome (solver * list event)) :=
    let s1 := {| sv_start := sv_start s0; sv_i := sv_start s0; sv_time := sv_time s0; sv_dt := sv_dt s0; sv_x := sv_x s0;
                 sv_tmp_u := sv_tmp_u s0; sv_tmp_rho := sv_tmp_rho s0; sv_res_u := sv_res_u s0; sv_res_rho := sv_res_rho s0 |} in
    match obind (if (rc_compressible c && Nat.leb (sv_i s1) 1)%bool then initializeDistributions_compressible s1 else Ok (s1, O))
                (fun sn => collide (fst sn)) with
    | Ok (s3, ev) =>
        match loop fuel s3 ev with
        | Some (Ok (s4, tr)) =>
            match output s4 (sv_i s4) true with
            | Ok ev' => Some (Ok (s4, tr ++ ev'))
            | Throw => Some Throw
            | UB => Some UB
            end
        | r => r
        end
    | Throw => Some Throw
    | UB => Some UB
    end.
End Solver.
Arguments stream {X D}. Arguments iterate {X D}. Arguments loop {X D}. Arguments run {X D}.
Arguments output {X D}. Arguments collide {X D}. Arguments filter {X D}. Arguments stopConditionMet {X D}.
Arguments init_step {X D}. Arguments init_loop {X D}. Arguments init_loop_compressible {X D}. Arguments set_time {X}.
Arguments initializeDistributions {X D}. Arguments initializeDistributions_compressible {X D}.
Arguments calculateResiduals {X D}. Arguments set_x {X}. Arguments next_i {X}.
Arguments so_nodes {X D}. Arguments so_dim {X D}. Arguments so_scaling {X D}. Arguments so_velocity {X D}.
Arguments so_density {X D}. Arguments so_data {X D}. Arguments so_collide {X D}. Arguments so_advect {X D}.
Arguments so_integrate {X D}. Arguments so_filter {X D}. Arguments so_processors {X D}.
Arguments so_init_collide {X D}. Arguments so_set_equilibrium {X D}. Arguments so_add_gradients {X D}.
Arguments sv_start {X}. Arguments sv_i {X}. Arguments sv_time {X}. Arguments sv_dt {X}. Arguments sv_x {X}.
Arguments sv_tmp_u {X}. Arguments sv_tmp_rho {X}. Arguments sv_res_u {X}. Arguments sv_res_rho {X}.
Arguments EvCollide {D}. Arguments EvResidual {D}. Arguments EvOutput {D}. Arguments EvMesh {D}.
Arguments EvSolution {D}. Arguments EvTable {D}. Arguments EvCheckpoint {D}. Arguments EvStream {D}. Arguments EvFilter {D}.
