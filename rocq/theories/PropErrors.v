(** Properties C81, C82: benchmark runs and their error tables. *)
From Coq Require Import NArith.
From Verif Require Import Prelude ModelConfigNames ModelRun ModelCheckpoint ModelErrors SpecRun SpecErrors ProofRunEx ProofErrors ProofErrorStats ProofErrorsEx.
Local Open Scope R_scope.

(** ** C81: the benchmark solver *)

(** A run of BenchmarkCFDSolver ends in the same state as the run of CFDSolver, does the same in the same order up to its last
    output, and writes one line of the error table in every iteration of the run divisible by the table interval. *)
Theorem C81_same_run : forall X D (c : run_config) (o : solver_ops X D) fuel s0 s tr,
  rc_compressible c = false -> run c o fuel s0 = Some (Ok (s, tr)) ->
  exists tr' tr0 last last', bench_run c o fuel s0 = Some (Ok (s, tr')) /\
    error_lines tr' = List.filter (fun i => (negb (rc_output_off c) && Nat.eqb (i mod rc_table_interval c) 0)%bool)
                        (seq (sv_start s0) (S (sv_i s - sv_start s0))) /\
    tr = tr0 ++ last /\ run_part tr' = tr0 ++ last' /\
    output c o s (sv_i s) true = Ok last /\ output c o s (sv_i s) false = Ok last' /\ sv_start s = sv_start s0.
Proof. exact @bench_run_ok. Qed.
Print Assumptions C81_same_run.

(** Its checkpoints are those of the run of CFDSolver except for the last iteration, if the interval does not divide it. *)
Theorem C81_checkpoints_partial : forall X D (c : run_config) (o : solver_ops X D) fuel s0 s tr s' tr', rc_compressible c = false ->
  run c o fuel s0 = Some (Ok (s, tr)) -> bench_run c o fuel s0 = Some (Ok (s', tr')) ->
  s' = s /\
  forall i, In i (checkpoints_of (run_part tr')) <->
    In i (checkpoints_of tr) /\ ~ (i = sv_i s /\ (sv_i s mod rc_checkpoint_interval c <> 0)%nat).
Proof. exact @bench_checkpoints. Qed.
Print Assumptions C81_checkpoints_partial.

(** CFDSolver writes the solution of the last iteration; the benchmark solver only multiples of the interval. *)
Theorem C81_solutions_partial : forall X D (c : run_config) (o : solver_ops X D) fuel s0, rc_compressible c = false ->
  (forall s tr, rc_output_off c = false -> run c o fuel s0 = Some (Ok (s, tr)) -> In (sv_i s) (solutions_of tr)) /\
  (forall s tr, bench_run c o fuel s0 = Some (Ok (s, tr)) ->
     forall i, In i (solutions_of (run_part tr)) -> (i mod rc_solution_interval c = 0)%nat).
Proof. exact @solutions_summary. Qed.
Print Assumptions C81_solutions_partial.

Example C81_nonvacuous : exists s tr, run (e_c false 2) (t_ops (fun x => x / 2)) 4 (fresh 1 1) = Some (Ok (s, tr)) /\
  exists tr', bench_run (e_c false 2) (t_ops (fun x => x / 2)) 4 (fresh 1 1) = Some (Ok (s, tr')) /\ error_lines tr' = [0; 2]%nat.
Proof.
  destruct (e_run false 2 ltac:(lia)) as (s & tr & E & Hi). exists s, tr. split; [exact E|].
  destruct (C81_same_run _ _ (e_c false 2) _ _ _ _ _ eq_refl E) as (tr' & _ & _ & _ & B & L & _). exists tr'. split; [exact B|].
  rewrite L, Hi. reflexivity.
Qed.

(** C81 in full: the last state of a run of the base class is in a checkpoint and in a solution file, not with the
    benchmark solver. *)
Theorem C81_final_refuted : exists (c : run_config) (o : solver_ops R R) fuel s0 s tr tr',
  rc_compressible c = false /\ run c o fuel s0 = Some (Ok (s, tr)) /\ bench_run c o fuel s0 = Some (Ok (s, tr')) /\
  In (sv_i s) (checkpoints_of tr) /\ ~ In (sv_i s) (checkpoints_of (run_part tr')) /\
  In (sv_i s) (solutions_of tr) /\ ~ In (sv_i s) (solutions_of (run_part tr')).
Proof. exact final_missing. Qed.
Print Assumptions C81_final_refuted.

(** The compressible benchmark solver never writes a line of the error table. *)
Theorem C81_compressible : forall X D (c : run_config) (o : solver_ops X D) fuel s0 s tr,
  rc_compressible c = true -> bench_run c o fuel s0 = Some (Ok (s, tr)) -> error_lines tr = [].
Proof. exact @compressible_no_lines. Qed.
Print Assumptions C81_compressible.
Theorem C81_compressible_refuted : exists (c : run_config) (o : solver_ops R R) fuel s0 s tr,
  rc_output_off c = false /\ rc_table_interval c = 1%nat /\ bench_run c o fuel s0 = Some (Ok (s, tr)) /\
  sv_i s = 3%nat /\ error_lines tr = [].
Proof.
  destruct compressible_runs as (s & tr & E & Hi). exists (e_c true 1), (t_ops (fun x => x / 2)), 4%nat, (fresh 1 1), s, tr.
  split; [reflexivity|split; [reflexivity|split; [exact E|split; [exact Hi|]]]]. exact (C81_compressible _ _ (e_c true 1) _ _ _ _ _ eq_refl E).
Qed.
Print Assumptions C81_compressible_refuted.

(** ** C82: error statistics *)

(** The values of ErrorStats after an update: the largest errors at the support points over all processes, the largest
    analytic velocity, and the L2 norms of the errors of the finite element functions with the quadrature of the cells. *)
Theorem C82_values : forall P (v : view P),
  (forall cells cl q, In cells (vw_cells v) -> In cl cells -> In q cl -> 0 <= qp_w q) ->
  forall es : stats, es_iteration es <> vw_iteration v -> vw_dim v = 2%nat \/ vw_dim v = 3%nat ->
  exists es', update es v = Ok es' /\ es_iteration es' = vw_iteration v /\ es_time es' = vw_time v /\
    largest (concat (vw_ranks v)) (fun i => Rabs (vw_num_rho v i - vw_ana_rho v (vw_time v) (vw_support v i))) (es_maxDensityError es') /\
    largest (concat (vw_ranks v))
      (fun i => distance (vw_dim v) (fun j => vw_num_u v j i) (vw_ana_u v (vw_time v) (vw_support v i))) (es_maxVelocityError es') /\
    largest (concat (vw_ranks v))
      (fun i => distance (vw_dim v) (vw_ana_u v (vw_time v) (vw_support v i)) (fun _ => 0)) (es_maxUAnalytic es') /\
    es_l2UAnalytic es' = sqrt (fold_right (fun i s => distance (vw_dim v) (vw_ana_u v (vw_time v) (vw_support v i)) (fun _ => 0) ^ 2 + s) 0 (concat (vw_ranks v))) /\
    es_l2DensityError es' = sqrt (quadrature (concat (vw_cells v)) (fun q => (qp_rho q - vw_ana_rho v (vw_time v) (qp_x q)) ^ 2)) /\
    es_l2VelocityError es' =
      sqrt (quadrature (concat (vw_cells v)) (fun q => distance (vw_dim v) (qp_u q) (vw_ana_u v (vw_time v) (qp_x q)) ^ 2)).
Proof. exact @update_values. Qed.
Print Assumptions C82_values.

(** The line in the table: the iteration, and below every further title what it promises; the same line when it is written
    again. *)
Theorem C82_line : forall P (v : view P),
  (forall cells cl q, In cells (vw_cells v) -> In cl cells -> In q cl -> 0 <= qp_w q) ->
  forall es : stats, es_iteration es <> vw_iteration v -> vw_dim v = 2%nat \/ vw_dim v = 3%nat ->
  exists es' l, printNewLine es v = Ok (es', (vw_iteration v, l)) /\ length l = length (tl errors_header) /\
    (forall c x, In (c, x) (combine (tl errors_header) l) -> promised_error v c x) /\
    printNewLine es' v = Ok (es', (vw_iteration v, l)).
Proof. exact line_values. Qed.
Print Assumptions C82_line.

(** A second update in the same iteration changes nothing. *)
Theorem C82_again : forall P (es : stats) (v : view P) es', update es v = Ok es' ->
  forall v' : view P, vw_iteration v' = vw_iteration v -> update es' v' = Ok es'.
Proof. exact @update_again. Qed.
Print Assumptions C82_again.

(** The norms of Math.h that CFDSolver also uses. *)
Theorem C82_maxVelocityNorm : forall (dim : nat) (ranks : list (list nat)) (u : nat -> nat -> R) (m : R),
  maxVelocityNorm dim ranks u = Ok m -> largest (concat ranks) (fun i => distance dim (fun j => u j i) (fun _ => 0)) m.
Proof. exact maxVelocityNorm_largest. Qed.
Print Assumptions C82_maxVelocityNorm.
Theorem C82_velocity2Norm : forall (dim : nat) (ranks : list (list nat)) (u : nat -> nat -> R) (m : R),
  velocity2Norm dim ranks u = Ok m ->
  m = sqrt (fold_right (fun i s => distance dim (fun j => u j i) (fun _ => 0) ^ 2 + s) 0 (concat ranks)).
Proof. exact velocity2Norm_sum. Qed.
Print Assumptions C82_velocity2Norm.

Example C82_nonvacuous : forall l2, exists es, update (stats_start l2) one_cell = Ok es /\ es_l2DensityError es = 2 /\ es_l2VelocityError es = 2 /\
  es_maxDensityError es = 1.
Proof. exact one_cell_errors. Qed.

(** C82 as documented (sum over the degrees of freedom without weights): false on a cell of measure 4. *)
Theorem C82_documented_refuted : exists (v : view unit) es es', update es v = Ok es' /\
  es_l2DensityError es' <>
  documented_error (concat (vw_ranks v)) (vw_num_rho v) (fun i => vw_ana_rho v (vw_time v) (vw_support v i)).
Proof.
  destruct (one_cell_errors 0) as (es & E & H & _). exists one_cell, (stats_start 0), es. split; [exact E|]. rewrite H.
  unfold documented_error. cbn [one_cell vw_ranks concat app fold_right vw_num_rho vw_ana_rho].
  replace ((2 - 1) ^ 2 + 0) with 1 by ring. rewrite sqrt_1. lra.
Qed.
Print Assumptions C82_documented_refuted.
