(** Model of solver/BenchmarkCFDSolver.cpp (output), solver/BenchmarkCompressibleCFDSolver.cpp (output),
    solver/ErrorStats.cpp and utilities/Math.h, Math.cpp (maxVelocityNorm, velocity2Norm). *)
From Coq Require Import NArith.
From Verif Require Import Prelude ModelRun.
Local Open Scope R_scope.

(** ** Output of the benchmark solvers *)

Section BenchmarkSolver.
  Variables (X D : Type) (c : run_config) (o : solver_ops X D).

  (** What a benchmark run does: what every run does, and lines of errors_table.txt. *)
  Inductive bench_event :=
  | BRun (e : event D)
  | BError (i : nat).

  (** BenchmarkCFDSolver.cpp:45-55; the second argument is not used. *)
  Definition bench_output (s : solver X) (iteration : nat) (is_final : bool) : outcome (list bench_event) :=
    obind (output c o s iteration false) (fun ev =>
    obind (if rc_output_off c then Ok []
           else obind (cmod (sv_i s) (rc_table_interval c)) (fun r => if Nat.eqb r 0 then Ok [BError (sv_i s)] else Ok []))
      (fun errs => Ok (map BRun ev ++ errs))).

  (** CFDSolver.cpp:884-891 with the virtual function output resolved for BenchmarkCFDSolver. *)
  Definition bench_iterate (s : solver X) : outcome (solver X * list bench_event) :=
    obind (bench_output s (sv_i s) false) (fun ev1 =>
    let s1 := stream c o (next_i s) in
    obind (filter c o s1) (fun sf =>
    obind (collide o (fst sf)) (fun sc =>
    let s2 := set_x (fst sc) (fold_left (fun x p => p x) (so_processors o) (sv_x (fst sc))) in
    Ok (s2, ev1 ++ map BRun ([EvStream (sv_i s) (sv_time s)] ++ snd sf ++ snd sc))))).

  (** CFDSolver.cpp:880-892. *)
  Fixpoint bench_loop (fuel : nat) (s : solver X) (tr : list bench_event) : option (outcome (solver X * list bench_event)) :=
    match fuel with
    | O => None
    | S fuel' =>
        let r := stopConditionMet c o s in
        if fst (fst r) then Some (Ok (snd (fst r), tr ++ map BRun (snd r)))
        else match bench_iterate (snd (fst r)) with
             | Ok (s', ev) => bench_loop fuel' s' (tr ++ map BRun (snd r) ++ ev)
             | Throw => Some Throw
             | UB => Some UB
             end
    end.

  (** CFDSolver.cpp:876-902 for BenchmarkCFDSolver.  BenchmarkCompressibleCFDSolver inherits run from
      CompressibleCFDSolver.h:1006-1051, which calls compressibleOutput (not virtual, not overridden) instead of
      output. *)
  Definition bench_run (fuel : nat) (s0 : solver X) : option (outcome (solver X * list bench_event)) :=
    if rc_compressible c then
      match run c o fuel s0 with
      | Some (Ok (s, tr)) => Some (Ok (s, map BRun tr))
      | Some Throw => Some Throw
      | Some UB => Some UB
      | None => None
      end
    else
    let s1 := {| sv_start := sv_start s0; sv_i := sv_start s0; sv_time := sv_time s0; sv_dt := sv_dt s0; sv_x := sv_x s0;
                 sv_tmp_u := sv_tmp_u s0; sv_tmp_rho := sv_tmp_rho s0; sv_res_u := sv_res_u s0; sv_res_rho := sv_res_rho s0 |} in
    match collide o s1 with
    | Ok (s3, ev) =>
        match bench_loop fuel s3 (map BRun ev) with
        | Some (Ok (s4, tr)) =>
            match bench_output s4 (sv_i s4) true with
            | Ok ev' => Some (Ok (s4, tr ++ ev'))
            | Throw => Some Throw
            | UB => Some UB
            end
        | r => r
        end
    | Throw => Some Throw
    | UB => Some UB
    end.
End BenchmarkSolver.
Arguments BRun {D}. Arguments BError {D}.
Arguments bench_output {X D}. Arguments bench_iterate {X D}. Arguments bench_loop {X D}. Arguments bench_run {X D}.

(** ** Norms over the processes *)

(** MPI::max and MPI::sum over the processes; every process has its list of owned degrees of freedom. *)
Definition mpi_max (ranks : list (list nat)) (f : list nat -> R) : R := fold_right (fun r m => Rmax (f r) m) 0 ranks.
Definition mpi_sum {A} (ranks : list A) (f : A -> R) : R := fold_right (fun r s => f r + s) 0 ranks.

(** Math.h:95-98: norm_square of degree of freedom [i]. *)
Definition norm_square (dim : nat) (u : nat -> nat -> R) (i : nat) : R := sumf dim (fun j => u j i * u j i).

(** Math.h:89-102: the loop over the owned degrees of freedom. *)
Fixpoint max_square (dim : nat) (u : nat -> nat -> R) (dofs : list nat) (m : R) : R :=
  match dofs with
  | nil => m
  | i :: rest => let n := norm_square dim u i in max_square dim u rest (if Rlt_dec m n then n else m)
  end.

(** Math.h:77-106. *)
Definition maxVelocityNorm (dim : nat) (ranks : list (list nat)) (u : nat -> nat -> R) : outcome R :=
  if (Nat.ltb 1 dim && Nat.ltb dim 4)%bool then Ok (sqrt (mpi_max ranks (fun dofs => max_square dim u dofs 0))) else Throw.

(** Math.cpp:28-39, 58-69. *)
Fixpoint sum_square (dim : nat) (u : nat -> nat -> R) (dofs : list nat) (s : R) : R :=
  match dofs with nil => s | i :: rest => sum_square dim u rest (s + norm_square dim u i) end.

(** Math.cpp:46-74. *)
Definition velocity2Norm (dim : nat) (ranks : list (list nat)) (u : nat -> nat -> R) : outcome R :=
  if (Nat.ltb 1 dim && Nat.ltb dim 4)%bool then Ok (sqrt (mpi_sum ranks (fun dofs => sum_square dim u dofs 0))) else Throw.

(** ** ErrorStats *)

Section ErrorStats.
  Variable P : Type.   (* points of the domain *)

  (** A quadrature point of a cell: weight times Jacobian determinant, point, value of the finite element
      functions of velocity and density. *)
  Record qpoint := { qp_w : R; qp_x : P; qp_u : nat -> R; qp_rho : R }.

  (** What ErrorStats reads from the solver. *)
  Record view := {
    vw_iteration : N;                    (* getIteration() *)
    vw_time : R;                         (* getTime() *)
    vw_dim : nat;
    vw_ranks : list (list nat);          (* getLocallyOwnedDofs() of every process *)
    vw_support : nat -> P;               (* m_supportPoints *)
    vw_ana_u : R -> P -> nat -> R;       (* getAnalyticUFunction(time), component *)
    vw_ana_rho : R -> P -> R;
    vw_num_u : nat -> nat -> R;          (* getVelocity().at(component)(dof) *)
    vw_num_rho : nat -> R;
    vw_cells : list (list (list qpoint)) (* the cells of every process *)
  }.

  (** ErrorStats.h:38-45. *)
  Record stats := {
    es_iteration : N;
    es_time : R;
    es_maxVelocityError : R;
    es_maxDensityError : R;
    es_l2VelocityError : R;
    es_l2DensityError : R;
    es_maxUAnalytic : R;
    es_l2UAnalytic : R
  }.

  (** ErrorStats.cpp:18-30 (m_l2UAnalytic is not initialised; any value). *)
  Definition stats_start (l2 : R) : stats :=
    {| es_iteration := 100000000037; es_time := 0; es_maxVelocityError := 0; es_maxDensityError := 0;
       es_l2VelocityError := 0; es_l2DensityError := 0; es_maxUAnalytic := 0; es_l2UAnalytic := l2 |}.

  (** linfty_norm() of a distributed vector. *)
  Definition linfty_mpi (ranks : list (list nat)) (g : nat -> R) : R := mpi_max ranks (fun dofs => linfty dofs g).

  (** VectorTools::integrate_difference with L2_norm on one cell, for a scalar function. *)
  Definition cell_error (cell : list qpoint) (diff : qpoint -> R) : R :=
    sqrt (fold_right (fun q s => diff q * diff q * qp_w q + s) 0 cell).

  (** l2_norm() of the vector of the cell errors. *)
  Definition local_norm (cells : list (list qpoint)) (diff : qpoint -> R) : R :=
    sqrt (fold_right (fun cl s => cell_error cl diff * cell_error cl diff + s) 0 cells).

  (** ErrorStats.cpp:47-190.  The vectors m_analyticDensity and m_analyticVelocity, which are overwritten again
      before each use, are left out. *)
  Definition update (es : stats) (v : view) : outcome stats :=
    if N.eqb (es_iteration es) (vw_iteration v) then Ok es
    else
      let t := vw_time v in
      let dim := vw_dim v in
      let ana_u := fun j i => vw_ana_u v t (vw_support v i) j in
      let ana_rho := fun i => vw_ana_rho v t (vw_support v i) in
      let d_rho := fun i => ana_rho i - vw_num_rho v i in
      obind (maxVelocityNorm dim (vw_ranks v) ana_u) (fun maxU =>
      obind (velocity2Norm dim (vw_ranks v) ana_u) (fun l2U =>
      let d0 := fun i => ana_u 0%nat i - vw_num_u v 0%nat i in
      let d1 := fun i => ana_u 1%nat i - vw_num_u v 1%nat i in
      let d2 := fun i => ana_u 2%nat i - vw_num_u v 2%nat i in
      let sq := fun i => d0 i * d0 i + d1 i * d1 i + (if Nat.eqb dim 3 then d2 i * d2 i else 0) in
      let err := fun i => sqrt (sq i) in
      let l2 := fun diff cells => local_norm cells diff * local_norm cells diff in
      let du := fun j q => qp_u q j - vw_ana_u v t (qp_x q) j in
      let l2rho := sqrt (mpi_sum (vw_cells v) (l2 (fun q => qp_rho q - vw_ana_rho v t (qp_x q)))) in
      let l2u := sqrt (mpi_sum (vw_cells v) (fun cells =>
                   l2 (du 0%nat) cells + l2 (du 1%nat) cells + (if Nat.eqb dim 3 then l2 (du 2%nat) cells else 0))) in
      Ok {| es_iteration := vw_iteration v; es_time := t;
            es_maxVelocityError := linfty_mpi (vw_ranks v) err;
            es_maxDensityError := linfty_mpi (vw_ranks v) d_rho;
            es_l2VelocityError := l2u; es_l2DensityError := l2rho;
            es_maxUAnalytic := maxU; es_l2UAnalytic := l2U |})).

  (** ErrorStats.cpp:193-201 printHeaderLine: the columns of the table. *)
  Inductive error_column := ColIteration | ColTime | ColMaxAnalytic | ColMaxErrorU | ColMaxErrorRho | ColL2ErrorU | ColL2ErrorRho.
  Definition errors_header : list error_column :=
    [ColIteration; ColTime; ColMaxAnalytic; ColMaxErrorU; ColMaxErrorRho; ColL2ErrorU; ColL2ErrorRho].

  (** ErrorStats.cpp:205-216: the line written (iteration, time, max |u_analytic|, max |error_u|, max |error_rho|,
      ||error_u||_2, ||error_rho||_2). *)
  Definition printNewLine (es : stats) (v : view) : outcome (stats * (N * list R)) :=
    obind (if N.eqb (es_iteration es) (vw_iteration v) then Ok es else update es v) (fun es' =>
    Ok (es', (es_iteration es', [es_time es'; es_maxUAnalytic es'; es_maxVelocityError es'; es_maxDensityError es';
                                 es_l2VelocityError es'; es_l2DensityError es']))).
End ErrorStats.
Arguments update {P}. Arguments printNewLine {P}.
Arguments qp_w {P}. Arguments qp_x {P}. Arguments qp_u {P}. Arguments qp_rho {P}.
Arguments vw_iteration {P}. Arguments vw_time {P}. Arguments vw_dim {P}. Arguments vw_ranks {P}. Arguments vw_support {P}.
Arguments vw_ana_u {P}. Arguments vw_ana_rho {P}. Arguments vw_num_u {P}. Arguments vw_num_rho {P}. Arguments vw_cells {P}.
Arguments cell_error {P}. Arguments local_norm {P}.
