(** Model of solver/PhysicalProperties.cpp, solver/SolverStats.h, solver/TurbulenceStats.cpp,
    dataprocessors/GlobalTurbulenceStats.cpp and dataprocessors/CompressibleTurbulenceStats.cpp.
    Simplifications: doubles are real numbers, file output is the list of printed columns, the process of rank 0
    writes; deal.II's FEValues is given by its tables (shape_value, shape_grad, JxW, get_dof_indices) per cell. *)
From Coq Require Import NArith.
From Verif Require Import Prelude ModelErrors.
Local Open Scope R_scope.

(** FEValues after reinit(cell) and cell->get_dof_indices, e.g. PhysicalProperties.cpp:55-59: [fc_dof i] global index
    of the [i]-th degree of freedom, [fc_shape i q], [fc_grad i q k], [fc_JxW q]. *)
Record fe_cell := { fc_dof : nat -> nat; fc_shape : nat -> nat -> R; fc_grad : nat -> nat -> nat -> R; fc_JxW : nat -> R }.

(** A distributed_vector: the value of every degree of freedom. *)
Definition field := nat -> R.

(** PhysicalProperties.cpp:49-72 etc.: result = 0; for all locally owned cells: result += .... *)
Definition over_cells (cells : list fe_cell) (g : fe_cell -> R) : R := fold_left (fun r c => r + g c) cells 0.

Section Properties.
  (** fe->dofs_per_cell, quadrature->size(), and the locally owned cells of every process. *)
  Variables (dofs_per_cell n_q_points : nat) (ranks : list (list fe_cell)).

  (** The loops over cells, q and i, and MPI::min_max_avg(...).sum. *)
  Definition integrate (g : fe_cell -> nat -> nat -> R) : R :=
    mpi_sum ranks (fun cells => over_cells cells (fun c => sumf n_q_points (fun q => sumf dofs_per_cell (fun i => g c q i)))).

  (** The same with a body per quadrature point. *)
  Definition integrate_q (g : fe_cell -> nat -> R) : R :=
    mpi_sum ranks (fun cells => over_cells cells (fun c => sumf n_q_points (fun q => g c q))).

  (** PhysicalProperties.cpp:29-79. *)
  Definition kineticEnergy2 (u : nat -> field) (rho : field) : R :=
    5/10 * integrate (fun c q i =>
      let l := fc_dof c i in
      rho l * (u 0%nat l * u 0%nat l + u 1%nat l * u 1%nat l) * fc_shape c i q * fc_JxW c q).

  (** PhysicalProperties.cpp:80-131. *)
  Definition kineticEnergy3 (u : nat -> field) (rho : field) : R :=
    5/10 * integrate (fun c q i =>
      let l := fc_dof c i in
      rho l * (u 0%nat l * u 0%nat l + u 1%nat l * u 1%nat l + u 2%nat l * u 2%nat l) * fc_shape c i q * fc_JxW c q).

  (** PhysicalProperties.cpp:170-175. *)
  Definition vorticity2 (u : nat -> field) (c : fe_cell) (q : nat) : R :=
    sumf dofs_per_cell (fun i => let l := fc_dof c i in u 1%nat l * fc_grad c i q 0%nat - u 0%nat l * fc_grad c i q 1%nat).

  (** PhysicalProperties.cpp:133-193: the result and *squared. *)
  Definition enstrophy2 (u : nat -> field) : R * R :=
    (integrate_q (fun c q => let w := vorticity2 u c q in w * w * fc_JxW c q),
     integrate_q (fun c q => let w := vorticity2 u c q in w * w * w * w * fc_JxW c q)).

  (** PhysicalProperties.cpp:237-253. *)
  Definition frobenius_sq (u : nat -> field) (c : fe_cell) (q : nat) : R :=
    sumf 3 (fun k =>
      let du := sumf dofs_per_cell (fun i => u 0%nat (fc_dof c i) * fc_grad c i q k) in
      let dv := sumf dofs_per_cell (fun i => u 1%nat (fc_dof c i) * fc_grad c i q k) in
      let dw := sumf dofs_per_cell (fun i => u 2%nat (fc_dof c i) * fc_grad c i q k) in
      du * du + dv * dv + dw * dw).

  (** PhysicalProperties.cpp:195-267. *)
  Definition enstrophy3 (u : nat -> field) : R * R :=
    (integrate_q (fun c q => frobenius_sq u c q * fc_JxW c q),
     integrate_q (fun c q => frobenius_sq u c q * frobenius_sq u c q * fc_JxW c q)).

  (** PhysicalProperties.cpp:269-310. *)
  Definition mass (rho : field) : R :=
    integrate (fun c q i => rho (fc_dof c i) * fc_shape c i q * fc_JxW c q).

  (** PhysicalProperties.cpp:322-363; division by an area of 0 is not a number. *)
  Definition meanVelocityX (ux : field) : option R :=
    let result := integrate (fun c q i => ux (fc_dof c i) * fc_JxW c q) in
    let area := integrate (fun c q i => fc_JxW c q) in
    if Req_EM_T area 0 then None else Some (result / area).

  (** PhysicalProperties.cpp:398-400: one summand; log of a number <= 0 is not a number (or 0 * -inf). *)
  Definition entropy_term (f w : R) : option R := if Rlt_dec 0 (f / w) then Some (f * ln (f / w)) else None.

  (** A loop that adds up summands which may be NaN. *)
  Fixpoint sum_opt (n : nat) (g : nat -> option R) : option R :=
    match n with
    | O => Some 0
    | S k => match sum_opt k g, g k with Some a, Some b => Some (a + b) | _, _ => None end
    end.
  Definition sum_opt_list {A} (l : list A) (g : A -> option R) : option R :=
    fold_right (fun x s => match g x, s with Some a, Some b => Some (a + b) | _, _ => None end) (Some 0) l.

  (** PhysicalProperties.cpp:365-411; [None] = NaN. *)
  Definition entropy (Q : nat) (weights : nat -> R) (f : nat -> field) : option R :=
    sum_opt_list ranks (fun cells => sum_opt_list cells (fun c =>
      sum_opt n_q_points (fun q => sum_opt dofs_per_cell (fun i => sum_opt Q (fun j =>
        match entropy_term (f j (fc_dof c i)) (weights j) with
        | Some h => Some (- (h * fc_JxW c q))
        | None => None
        end))))).
End Properties.

(** Vector::max() and min() of a distributed vector: over the owned entries of all processes ([None]: no entry). *)
Definition vector_extreme (pick : R -> R -> R) (owned : list (list nat)) (v : field) : option R :=
  match concat owned with
  | [] => None
  | i :: rest => Some (fold_left (fun m k => pick m (v k)) rest (v i))
  end.

(** PhysicalProperties.cpp:312-320: (maximal pressure, minimalPressure). *)
Definition maximalPressure (owned : list (list nat)) (rho : field) (speedOfSound : R) : option (R * R) :=
  match vector_extreme Rmax owned rho, vector_extreme Rmin owned rho with
  | Some maximal, Some minimal => Some ((maximal - 1) * (speedOfSound * speedOfSound), (minimal - 1) * speedOfSound * speedOfSound)
  | _, _ => None
  end.

(** ** SolverStats: results_table.txt *)

(** The discretisation and stencil of a solver: dimension, FE tables, owned degrees of freedom per process, Q, weights,
    speed of sound. *)
Record setting := {
  st_dim : nat; st_dofs_per_cell : nat; st_n_q : nat; st_ranks : list (list fe_cell); st_owned : list (list nat);
  st_Q : nat; st_weights : nat -> R; st_sound : R }.

(** What SolverStats reads from its solver. *)
Record solver_view := {
  vi_iteration : N; vi_time : R; vi_rho : field; vi_u : nat -> field; vi_f : nat -> field; vi_res_rho : R; vi_res_u : R }.

(** SolverStats.h:34-47; [None] in a number: NaN. [s_mean] is an uninitialised variable before the first update. *)
Record stats := {
  s_iteration : N; s_time : R; s_maxU : R; s_mass : R; s_kinE : R; s_enstrophy : R; s_enstrophy_sq : R;
  s_entropy : option R; s_maxP : R; s_minP : R; s_mean : outcome (option R) }.

(** SolverStats.h:59-71. *)
Definition stats_init : stats :=
  {| s_iteration := 1000000000037%N; s_time := 0; s_maxU := 0; s_mass := 0; s_kinE := 0; s_enstrophy := 0; s_enstrophy_sq := 0;
     s_entropy := Some 0; s_maxP := 0; s_minP := 0; s_mean := UB |}.

(** SolverStats.h:211-213. *)
Definition isUpToDate (s : stats) (v : solver_view) : bool := N.eqb (s_iteration s) (vi_iteration v).

(** PhysicalProperties<dim>::kineticEnergy and enstrophy: chosen by the template argument. *)
Definition kineticEnergy (g : setting) (u : nat -> field) (rho : field) : R :=
  if Nat.eqb (st_dim g) 2 then kineticEnergy2 (st_dofs_per_cell g) (st_n_q g) (st_ranks g) u rho
  else kineticEnergy3 (st_dofs_per_cell g) (st_n_q g) (st_ranks g) u rho.
Definition enstrophy (g : setting) (u : nat -> field) : R * R :=
  if Nat.eqb (st_dim g) 2 then enstrophy2 (st_dofs_per_cell g) (st_n_q g) (st_ranks g) u
  else enstrophy3 (st_dofs_per_cell g) (st_n_q g) (st_ranks g) u.

(** SolverStats.h:102-124; no degree of freedom at all: Throw. *)
Definition stats_update (g : setting) (s : stats) (v : solver_view) : outcome stats :=
  if isUpToDate s v then Ok s
  else
    obind (maxVelocityNorm (st_dim g) (st_owned g) (vi_u v)) (fun maxU =>
    let en := enstrophy g (vi_u v) in
    match maximalPressure (st_owned g) (vi_rho v) (st_sound g) with
    | None => Throw
    | Some (pmax, pmin) =>
        Ok {| s_iteration := vi_iteration v; s_time := vi_time v; s_maxU := maxU;
              s_mass := mass (st_dofs_per_cell g) (st_n_q g) (st_ranks g) (vi_rho v);
              s_kinE := kineticEnergy g (vi_u v) (vi_rho v);
              s_enstrophy := fst en; s_enstrophy_sq := snd en;
              s_entropy := entropy (st_dofs_per_cell g) (st_n_q g) (st_ranks g) (st_Q g) (st_weights g) (vi_f v);
              s_maxP := pmax; s_minP := pmin;
              s_mean := Ok (meanVelocityX (st_dofs_per_cell g) (st_n_q g) (st_ranks g) (vi_u v 0%nat)) |}
    end).

(** The header of results_table.txt, SolverStats.h:93-101. *)
Inductive column := CIteration | CTime | CMaxU | CMass | CKinE | CEnstrophy | CEntropy | CMaxP | CMinP | CResRho | CResU | CMeanUx | CEnstrophySq.
Definition results_header : list column :=
  [CIteration; CTime; CMaxU; CMass; CKinE; CEnstrophy; CEntropy; CMaxP; CMinP; CResRho; CResU; CMeanUx; CEnstrophySq].

(** SolverStats.h:168-181: the new object and the printed row. *)
Definition stats_printNewLine (g : setting) (s : stats) (v : solver_view) : outcome (stats * list (option R)) :=
  obind (if isUpToDate s v then Ok s else stats_update g s v) (fun s' =>
  obind (s_mean s') (fun mean =>
  Ok (s', [Some (IZR (Z.of_N (s_iteration s'))); Some (s_time s'); Some (s_maxU s'); Some (s_mass s'); Some (s_kinE s');
           Some (s_enstrophy s'); s_entropy s'; Some (s_maxP s'); Some (s_minP s'); Some (vi_res_rho v); Some (vi_res_u v);
           mean; Some (s_enstrophy_sq s')]))).

(** The lines of a simulation: printNewLine is called with the solver in the states [vs], one after the other. *)
Fixpoint stats_lines (g : setting) (s : stats) (vs : list solver_view) : outcome (list (list (option R))) :=
  match vs with
  | [] => Ok []
  | v :: rest => obind (stats_printNewLine g s v) (fun r => obind (stats_lines g (fst r) rest) (fun l => Ok (snd r :: l)))
  end.

(** ** TurbulenceStats: statistics in planes, Reynolds averages *)

(** TurbulenceStats.cpp:16-37: the owned degrees of freedom (of one process) in the plane. *)
Definition updatePlaneIndices (support : nat -> nat -> R) (direction : nat) (coordinate tolerance : R) (owned : list nat) : list nat :=
  filter (fun i => if Rlt_dec (Rabs (support i direction - coordinate)) tolerance then true else false) owned.

(** TurbulenceStats.cpp:56-62 and 74-80: sum over the plane indices of a process. *)
Definition over_indices (l : list nat) (g : nat -> R) : R := fold_left (fun s i => s + g i) l 0.

(** TurbulenceStats.cpp:38-88, component [a]: (average, rms); no point in the plane: 0/0, [None] = NaN. *)
Definition plane_calculate (planes : list (list nat)) (u : nat -> field) (a : nat) : option (R * R) :=
  let n_mpi := fold_right (fun l s => (length l + s)%nat) 0%nat planes in
  if Nat.eqb n_mpi 0 then None
  else
    let average := mpi_sum planes (fun l => over_indices l (fun i => u a i)) / INR n_mpi in
    let rms := sqrt (mpi_sum planes (fun l => over_indices l (fun i => (u a i - average) ^ 2)) / INR n_mpi) in
    Some (average, rms).

(** TurbulenceStats: m_statSize and m_uAverage (TurbulenceStats.cpp:101, 135-141: size 0, vectors of zeros). *)
Record reynolds := { re_size : nat; re_average : nat -> field }.
Definition reynolds_init : reynolds := {| re_size := 0; re_average := fun _ _ => 0 |}.

(** TurbulenceStats.cpp:221-237; components from [dim] on do not exist. *)
Definition addToReynoldsStatistics (r : reynolds) (u : nat -> field) : reynolds :=
  let scaled := fun a i => re_average r a i * INR (re_size r) in
  let added := fun a i => scaled a i + u a i in
  let n := S (re_size r) in
  {| re_size := n; re_average := fun a i => added a i * (1 / INR n) |}.

(** CFDSolver.cpp:998-999, CompressibleCFDSolver.h output: every call of output() adds the current velocity; [V i] is the
    velocity at the time of output(i), [outputs] the iterations for which output() was called (output not switched off,
    turbulence statistics switched on). *)
Definition reynolds_of_outputs (V : nat -> nat -> field) (outputs : list nat) : reynolds :=
  fold_left addToReynoldsStatistics (map V outputs) reynolds_init.

(** TurbulenceStats.cpp:151-181: the header: iteration, time, then averages and rms by plane and component. *)
Inductive turb_column := TIteration | TTime | TAverage (plane comp : nat) | TRms (plane comp : nat).
Definition turb_header (dim n_planes : nat) : list turb_column :=
  [TIteration; TTime]
  ++ flat_map (fun i => map (fun j => TAverage i j) (seq 0 dim)) (seq 0 n_planes)
  ++ flat_map (fun i => map (fun j => TRms i j) (seq 0 dim)) (seq 0 n_planes).

(** TurbulenceStats.cpp:183-219: the printed row when the object is not up to date; [planes i] are the plane indices
    of plane [i] on every process (TurbulenceStats.cpp:121-132). *)
Definition turb_row (dim n_planes : nat) (planes : nat -> list (list nat)) (iteration : N) (time : R) (u : nat -> field) : list (option R) :=
  let results := map (fun i => map (fun j => plane_calculate (planes i) u j) (seq 0 dim)) (seq 0 n_planes) in
  [Some (IZR (Z.of_N iteration)); Some time]
  ++ flat_map (fun row => map (fun r => option_map fst r) row) results
  ++ flat_map (fun row => map (fun r => option_map snd r) row) results.

(** TurbulenceStats.cpp:121-124: half of the smallest distance of degrees of freedom. *)
Definition plane_tolerance (min_distance : R) : R := 5/10 * min_distance.

(** ** GlobalTurbulenceStats: statistics over the whole domain *)

(** FEValues::get_function_values and get_function_gradients. *)
Definition function_value (n : nat) (v : field) (c : fe_cell) (q : nat) : R := sumf n (fun i => v (fc_dof c i) * fc_shape c i q).
Definition function_gradient (n : nat) (v : field) (c : fe_cell) (q k : nat) : R := sumf n (fun i => v (fc_dof c i) * fc_grad c i q k).

(** GlobalTurbulenceStats.cpp:27-49: the names; ODRho k is "drho/dx_k", ODU i k is "du_i/dx_k". *)
Inductive observable := ORho | ODRho (k : nat) | OU (i : nat) | ODU (i k : nat).
Definition m_names (dim : nat) : list observable :=
  [ORho; ODRho 0; ODRho 1] ++ (if Nat.eqb 3 dim then [ODRho 2] else [])
  ++ [OU 0; OU 1] ++ (if Nat.eqb 3 dim then [OU 2] else [])
  ++ [ODU 0 0; ODU 0 1] ++ (if Nat.eqb 3 dim then [ODU 0 2] else [])
  ++ [ODU 1 0; ODU 1 1] ++ (if Nat.eqb 3 dim then [ODU 1 2; ODU 2 0; ODU 2 1; ODU 2 2] else []).

(** GlobalTurbulenceStats.cpp:242-282. *)
Definition l_values (dim n : nat) (rho : field) (u : nat -> field) (c : fe_cell) (q : nat) : list R :=
  let three (x : R) := if Nat.eqb 3 dim then [x] else [] in
  [function_value n rho c q; function_gradient n rho c q 0; function_gradient n rho c q 1] ++ three (function_gradient n rho c q 2)
  ++ [function_value n (u 0%nat) c q; function_value n (u 1%nat) c q] ++ three (function_value n (u 2%nat) c q)
  ++ [function_gradient n (u 0%nat) c q 0; function_gradient n (u 0%nat) c q 1] ++ three (function_gradient n (u 0%nat) c q 2)
  ++ [function_gradient n (u 1%nat) c q 0; function_gradient n (u 1%nat) c q 1]
  ++ (if Nat.eqb 3 dim then [function_gradient n (u 1%nat) c q 2; function_gradient n (u 2%nat) c q 0;
                             function_gradient n (u 2%nat) c q 1; function_gradient n (u 2%nat) c q 2] else []).

(** GlobalTurbulenceStats.cpp:302-312: e1 and e2. *)
Definition point_energy (dim n : nat) (u : nat -> field) (c : fe_cell) (q : nat) : R :=
  let ux := function_value n (u 0%nat) c q in let uy := function_value n (u 1%nat) c q in let uz := function_value n (u 2%nat) c q in
  5/10 * ux * ux + 5/10 * uy * uy + (if Nat.eqb 3 dim then 5/10 * uz * uz else 0).
Definition point_enstrophy (dim n : nat) (u : nat -> field) (c : fe_cell) (q : nat) : R :=
  let d i k := function_gradient n (u i) c q k in
  (d 1%nat 0%nat - d 0%nat 1%nat) ^ 2
  + (if Nat.eqb 3 dim then (d 2%nat 1%nat - d 1%nat 2%nat) ^ 2 + (d 0%nat 2%nat - d 2%nat 0%nat) ^ 2 else 0).

(** GlobalTurbulenceStats.cpp:284-316, 325-: the quantities of m_averages, m_correlations, m_EX3, m_EX4, m_energy, ... after
    communication, and writeToFile (126-156). *)
Section Global.
  Variables (dim dofs_per_cell n_q_points : nat) (ranks : list (list fe_cell)).

  Definition global_average (rho : field) (u : nat -> field) (g : list R -> R) : R :=
    integrate_q n_q_points ranks (fun c q => g (l_values dim dofs_per_cell rho u c q) * fc_JxW c q).

  Definition global_row (iteration : N) (time : R) (rho : field) (u : nat -> field) : list R :=
    let n := length (m_names dim) in
    let v (j : nat) (l : list R) := nth j l 0 in
    [IZR (Z.of_N iteration); time]
    ++ map (fun j => global_average rho u (fun l => v j l)) (seq 0 n)
    ++ flat_map (fun j => map (fun r => global_average rho u (fun l => v j l * v r l)) (seq 0 (j + 1))) (seq 0 n)
    ++ map (fun j => global_average rho u (fun l => v j l ^ 3)) (seq 0 n)
    ++ map (fun j => global_average rho u (fun l => v j l ^ 4)) (seq 0 n)
    ++ [integrate_q n_q_points ranks (fun c q => point_energy dim dofs_per_cell u c q * fc_JxW c q);
        integrate_q n_q_points ranks (fun c q => point_enstrophy dim dofs_per_cell u c q * fc_JxW c q);
        integrate_q n_q_points ranks (fun c q => point_energy dim dofs_per_cell u c q * point_energy dim dofs_per_cell u c q * fc_JxW c q);
        integrate_q n_q_points ranks (fun c q => point_enstrophy dim dofs_per_cell u c q * point_enstrophy dim dofs_per_cell u c q * fc_JxW c q)].
End Global.

(** The legend file, GlobalTurbulenceStats.cpp:91-121: pairs of number and text. *)
Inductive legend_text :=
| LIteration | LTime | LMean (a : observable) | LProduct (a b : observable) | LThird (a : observable) | LFourth (a : observable)
| LEnergy | LEnstrophy | LEnergySq | LEnstrophySq.
Definition number_from {A} (k : nat) (l : list A) : list (nat * A) := combine (seq k (length l)) l.
Definition global_legend (dim : nat) : list (nat * legend_text) :=
  let names := m_names dim in
  let name j := nth j names ORho in
  (1%nat, LIteration) :: (3%nat, LTime)
  :: number_from 3
       (map LMean names
        ++ flat_map (fun i => map (fun j => LProduct (name i) (name j)) (seq 0 (i + 1))) (seq 0 (length names))
        ++ map LThird names ++ map LFourth names ++ [LEnergy; LEnstrophy; LEnergySq; LEnstrophySq]).

(** ** CompressibleTurbulenceStats *)

(** CompressibleTurbulenceStats.cpp:49-66: the legend, numbered from 0. *)
Inductive compressible_text := KIteration | KTime | KDilatation | KSolenoidal | KMaxMach | KTotalEnergy.
Definition compressible_legend : list (nat * compressible_text) := [(0%nat, KDilatation); (1%nat, KSolenoidal); (2%nat, KMaxMach)].

(** CompressibleTurbulenceStats.cpp:165; pow(T, 1.5) for T > 0. *)
Definition sutherland_factor (T : R) : R := 1402/1000 * Rpower T (3/2) / (T + 40417/100000).

Section Compressible.
  Variables (dim dofs_per_cell n_q_points : nat) (ranks : list (list fe_cell)) (gamma : R).

  (** CompressibleTurbulenceStats.cpp:168, 173, 179. *)
  Definition dilatation_sq (u : nat -> field) (c : fe_cell) (q : nat) : R :=
    let d i := function_gradient dofs_per_cell (u i) c q i in
    let e1 := d 0%nat + d 1%nat + (if Nat.eqb 3 dim then d 2%nat else 0) in e1 * e1.

  (** CompressibleTurbulenceStats.cpp:183-187. *)
  Definition local_mach (u : nat -> field) (T : field) (c : fe_cell) (q : nat) : R :=
    let v i := function_value dofs_per_cell (u i) c q in
    sqrt (v 0%nat * v 0%nat + v 1%nat * v 1%nat + (if Nat.eqb 3 dim then v 2%nat * v 2%nat else 0))
    / sqrt (gamma * function_value dofs_per_cell T c q).

  (** CompressibleTurbulenceStats.cpp:188-189 in the loops 138-194. *)
  Definition global_mach (u : nat -> field) (T : field) (cells : list fe_cell) : R :=
    fold_left (fun m c => fold_left (fun m q => if Rlt_dec m (local_mach u T c q) then local_mach u T c q else m)
                            (seq 0 n_q_points) m) cells 0.

  (** CompressibleTurbulenceStats.cpp:85-205, 68-82: the columns of a row.  A temperature <= 0 at a quadrature point
      makes pow and sqrt undefined: [None]. *)
  Definition compressible_row (iteration : N) (time : R) (rho : field) (u : nat -> field) (T : field) : option (list R) :=
    if forallb (fun cells => forallb (fun c => forallb (fun q =>
         if Rlt_dec 0 (function_value dofs_per_cell T c q) then true else false) (seq 0 n_q_points)) cells) ranks
    then
      let s c q := sutherland_factor (function_value dofs_per_cell T c q) in
      Some [IZR (Z.of_N iteration); time;
            integrate_q n_q_points ranks (fun c q => s c q * dilatation_sq u c q * fc_JxW c q);
            integrate_q n_q_points ranks (fun c q => s c q * point_enstrophy dim dofs_per_cell u c q * fc_JxW c q);
            fold_right (fun cells m => Rmax (global_mach u T cells) m) 0 ranks;
            integrate_q n_q_points ranks (fun c q => function_value dofs_per_cell T c q * fc_JxW c q)]
    else None.
End Compressible.
