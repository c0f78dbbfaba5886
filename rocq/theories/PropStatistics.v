(** Properties C100-C111: physical quantities and the statistics tables. *)
From Coq Require Import NArith Permutation Psatz.
From Verif Require Import Prelude BigSum ModelRun ModelCheckpoint SpecRun ProofRun ProofRestart2 ProofRunEx ModelErrors ModelStatistics SpecStatistics
  ProofStatistics ProofStatistics2 ProofStatistics3 ProofStatisticsEx ProofStatistics4.
Open Scope R_scope.

(** C100. The mass is the integral of the density, linear in it, the density times the volume if it is uniform, and does
    not depend on how the cells are distributed over processes. *)
Theorem C100_mass_is_integral : forall n nq ranks, let cells := concat ranks in
  (forall rho, mass n nq ranks rho = integral nq cells (at_point n rho)) /\
  (forall k a b, mass n nq ranks (fun i => k * a i + b i) = k * mass n nq ranks a + mass n nq ranks b) /\
  (forall k, partition_of_unity n nq cells -> mass n nq ranks (fun _ => k) = k * volume nq cells) /\
  (forall ranks' rho, Permutation cells (concat ranks') -> mass n nq ranks' rho = mass n nq ranks rho).
Proof. exact mass_summary. Qed.
Print Assumptions C100_mass_is_integral.

Example C100_nonvacuous : mass 4 4 [[square]; [wide_square]] (fun _ => 3) = 15.
Proof.
  destruct (C100_mass_is_integral 4 4 [[square]; [wide_square]]) as [_ [_ [H _]]]. cbv zeta in H. rewrite H.
  - unfold volume, integral. crunch. lra.
  - intros c q [<-|[<-|[]]] Hq; [apply (square_unity 1 lobatto_points)|apply (square_unity 2 lobatto_points)]; simpl; auto.
Qed.

(** C101. The kinetic energy is the integral of the interpolated nodal energy; with collocated quadrature points it is
    the integral of rho |u|^2 / 2 of the finite element functions, and not negative. *)
Theorem C101_kinetic_energy : forall g, (st_dim g = 2 \/ st_dim g = 3)%nat ->
  let cells := concat (st_ranks g) in let n := st_dofs_per_cell g in let nq := st_n_q g in
  (forall u rho, kineticEnergy g u rho =
     integral nq cells (at_point n (fun l => rho l * sumf (st_dim g) (fun a => u a l ^ 2) / 2))) /\
  (collocated n nq cells -> forall u rho, kineticEnergy g u rho =
     integral nq cells (fun c q => at_point n rho c q * speed_sq (st_dim g) n u c q / 2)) /\
  (collocated n nq cells -> positive_weights nq cells -> forall u rho, (forall i, 0 <= rho i) -> 0 <= kineticEnergy g u rho).
Proof. exact energy_summary. Qed.
Print Assumptions C101_kinetic_energy.

Example C101_nonvacuous : collocated 4 4 (concat (st_ranks (plane_setting square))) /\ positive_weights 4 (concat (st_ranks (plane_setting square))) /\
  kineticEnergy (plane_setting square) swing (fun _ => 1) = 1/2.
Proof.
  split; [exact square_collocated|]. split; [apply (square_weights 1 lobatto_points); lra|]. crunch. lra.
Qed.

(** C101. With the Gauss rule the kinetic energy is not the integral of rho |u|^2 / 2: here it is three times as large. *)
Theorem C101_kinetic_energy_gauss_refuted : exists g u rho, (st_dim g = 2)%nat /\
  partition_of_unity (st_dofs_per_cell g) (st_n_q g) (concat (st_ranks g)) /\ positive_weights (st_n_q g) (concat (st_ranks g)) /\
  kineticEnergy g u rho = 3 * integral (st_n_q g) (concat (st_ranks g))
    (fun c q => at_point (st_dofs_per_cell g) rho c q * speed_sq (st_dim g) (st_dofs_per_cell g) u c q / 2)
  /\ 0 < kineticEnergy g u rho.
Proof. exact energy_refuted. Qed.
Print Assumptions C101_kinetic_energy_gauss_refuted.

(** C102. Two dimensions: the enstrophy is the integral of the squared vorticity, the last column that of its fourth power. *)
Theorem C102_enstrophy_2d : forall n nq ranks u, let cells := concat ranks in
  fst (enstrophy2 n nq ranks u) = integral nq cells (curl_sq 2 n u) /\
  snd (enstrophy2 n nq ranks u) = integral nq cells (fun c q => curl_sq 2 n u c q ^ 2).
Proof. exact enstrophy2_summary. Qed.
Print Assumptions C102_enstrophy_2d.

(** C102. Three dimensions: the integral of the squared velocity gradient, which differs from that of the squared
    vorticity by the integral of the trace of the squared gradient. *)
Theorem C102_enstrophy_3d_gradient : forall n nq ranks u, let cells := concat ranks in
  fst (enstrophy3 n nq ranks u) = integral nq cells (fun c q => sumf 3 (fun i => sumf 3 (fun k => slope n (u i) c q k ^ 2))) /\
  fst (enstrophy3 n nq ranks u) = integral nq cells (curl_sq 3 n u)
    + integral nq cells (fun c q => sumf 3 (fun i => sumf 3 (fun k => slope n (u i) c q k * slope n (u k) c q i))).
Proof. exact enstrophy3_summary. Qed.
Print Assumptions C102_enstrophy_3d_gradient.

Example C102_nonvacuous : fst (enstrophy2 4 4 [[square]] rotation) = 4.
Proof.
  destruct (C102_enstrophy_2d 4 4 [[square]] rotation) as [E _]. rewrite E. crunch. lra.
Qed.

(** C102. In three dimensions a rigid rotation has the enstrophy 2 in results_table.txt and 4 in the table of the global
    turbulence statistics; the integral of the squared vorticity is 4. *)
Theorem C102_enstrophy_3d_refuted : exists n nq ranks u,
  partition_of_unity n nq (concat ranks) /\ positive_weights nq (concat ranks) /\
  fst (enstrophy3 n nq ranks u) = 2 /\ integral nq (concat ranks) (curl_sq 3 n u) = 4 /\
  (forall it t rho, exists k, In (k, LEnstrophy) (global_legend 3) /\ nth_error (global_row 3 n nq ranks it t rho u) (k - 1) = Some 4).
Proof. exact enstrophy_refuted. Qed.
Print Assumptions C102_enstrophy_3d_refuted.

(** C103. maxP and minP are pressures cs^2 (rho - 1) of degrees of freedom and bound the pressure of every one. *)
Theorem C103_extreme_pressures : forall owned rho cs, concat owned <> [] ->
  let p i := (rho i - 1) * cs ^ 2 in
  exists pmax pmin, maximalPressure owned rho cs = Some (pmax, pmin) /\
    (exists i, In i (concat owned) /\ pmax = p i) /\ (exists i, In i (concat owned) /\ pmin = p i) /\
    forall i, In i (concat owned) -> pmin <= p i <= pmax.
Proof. exact pressure_summary. Qed.
Print Assumptions C103_extreme_pressures.

Example C103_nonvacuous : maximalPressure [[0]; [1; 2]]%nat (fun i => INR i) 2 = Some (4, -4).
Proof.
  unfold maximalPressure, vector_extreme. cbn [concat app fold_left].
  replace (Rmax (Rmax (INR 0) (INR 1)) (INR 2)) with 2 by (simpl INR; unfold Rmax; repeat destruct (Rle_dec _ _); lra).
  replace (Rmin (Rmin (INR 0) (INR 1)) (INR 2)) with 0 by (simpl INR; unfold Rmin; repeat destruct (Rle_dec _ _); lra).
  do 2 f_equal; ring.
Qed.

(** C104. The mean velocity lies between the smallest and the largest nodal velocity, and is the mean of the velocity if
    every degree of freedom of a cell has the same share of its volume (linear elements). *)
Theorem C104_mean_velocity_partial : forall n nq ranks, let cells := concat ranks in
  (0 < n)%nat -> (0 < nq)%nat -> cells <> [] -> positive_weights nq cells ->
  (forall ux, exists m, meanVelocityX n nq ranks ux = Some m /\
     forall a b, (forall c i, In c cells -> (i < n)%nat -> a <= ux (fc_dof c i) <= b) -> a <= m <= b) /\
  (forall ux, (forall c i, In c cells -> (i < n)%nat -> sumf nq (fun q => fc_shape c i q * fc_JxW c q) = sumf nq (fc_JxW c) / INR n) ->
     meanVelocityX n nq ranks ux = Some (domain_mean nq cells (at_point n ux))).
Proof. exact mean_summary. Qed.
Print Assumptions C104_mean_velocity_partial.

Example C104_nonvacuous : meanVelocityX 4 4 [[square]] (fun l => INR (bit l 1)) = Some (domain_mean 4 [square] (at_point 4 (fun l => INR (bit l 1)))).
Proof.
  destruct (C104_mean_velocity_partial 4 4 [[square]]) as [_ H]; try lia; try discriminate.
  - apply (square_weights 1 lobatto_points). lra.
  - apply H. apply (square_shares 1).
Qed.

(** C104. On one quadratic element the parabola 4 y (1 - y) has the mean 2/3; meanVelocityX returns 1/3. *)
Theorem C104_mean_velocity_refuted : exists n nq ranks ux,
  collocated n nq (concat ranks) /\ positive_weights nq (concat ranks) /\ volume nq (concat ranks) = 1 /\
  domain_mean nq (concat ranks) (at_point n ux) = 2/3 /\ meanVelocityX n nq ranks ux = Some (1/3).
Proof. exact mean_refuted. Qed.
Print Assumptions C104_mean_velocity_refuted.

(** C105. The entropy of uniform populations is dofs_per_cell times their entropy density times the volume; a population
    that is not positive makes the result NaN. *)
Theorem C105_entropy_counted_per_dof : forall n nq ranks Q w, let cells := concat ranks in
  (forall F, (forall j, (j < Q)%nat -> 0 < F j /\ 0 < w j) ->
     entropy n nq ranks Q w (fun j _ => F j) = Some (INR n * (volume nq cells * - sumf Q (fun j => F j * ln (F j / w j))))) /\
  (forall f c i j, In c cells -> (0 < nq)%nat -> (i < n)%nat -> (j < Q)%nat -> 0 < w j -> f j (fc_dof c i) <= 0 ->
     entropy n nq ranks Q w f = None).
Proof. exact entropy_summary. Qed.
Print Assumptions C105_entropy_counted_per_dof.

(** C105. The entropy is not the integral of the entropy density. *)
Theorem C105_entropy_refuted : exists n nq ranks Q w F, volume nq (concat ranks) = 1 /\ partition_of_unity n nq (concat ranks) /\
  (forall j, (j < Q)%nat -> 0 < F j /\ 0 < w j) /\
  entropy n nq ranks Q w (fun j _ => F j) = Some (4 * (volume nq (concat ranks) * - sumf Q (fun j => F j * ln (F j / w j)))) /\
  volume nq (concat ranks) * - sumf Q (fun j => F j * ln (F j / w j)) < 0.
Proof. exact entropy_refuted. Qed.
Print Assumptions C105_entropy_refuted.

(** C106. Every line of results_table.txt has one number per column of the header, and each is what the column promises
    for the state in which the line was asked for, as long as the iteration number identifies the state and is not the
    initial value 1000000000037 of the object. *)
Theorem C106_results_table : forall g vs, (st_dim g = 2 \/ st_dim g = 3)%nat -> concat (st_owned g) <> [] ->
  (forall v w, In v vs -> In w vs -> vi_iteration v = vi_iteration w -> v = w) ->
  (forall v, In v vs -> vi_iteration v <> 1000000000037%N) ->
  exists rows, stats_lines g stats_init vs = Ok rows /\
    Forall2 (fun v row => length row = length results_header /\
                          forall t x, In (t, x) (combine results_header row) -> promised g v t x) vs rows.
Proof. exact lines_summary. Qed.
Print Assumptions C106_results_table.

Example C106_nonvacuous : exists r1 r2, stats_lines (plane_setting square) stats_init [view 10 1; view 20 2] = Ok [r1; r2] /\
  nth_error r1 3 = Some (Some 1) /\ nth_error r2 3 = Some (Some 2).
Proof. exact two_lines. Qed.

(** C107. The columns of the global turbulence statistics are integrals; on a domain of volume 1 they are the averages. *)
Theorem C107_global_averages_partial : forall dim n nq ranks it t rho u, (dim = 2 \/ dim = 3)%nat -> volume nq (concat ranks) = 1 ->
  forall k a, In (k, LMean a) (global_legend dim) ->
  nth_error (global_row dim n nq ranks it t rho u) (k - 1) = Some (domain_mean nq (concat ranks) (observed n rho u a)).
Proof.
  exact (fun dim n nq ranks it t rho u D V k a I =>
    eq_trans (proj2 (proj1 (legend_summary dim n nq ranks it t rho u D) k (LMean a) I ltac:(discriminate)))
             (f_equal Some (mean_unit_volume nq (concat ranks) (observed n rho u a) V))).
Qed.
Print Assumptions C107_global_averages_partial.

Example C107_nonvacuous : volume 4 (concat [[square]]) = 1 /\ In (6%nat, LMean (OU 0)) (global_legend 2).
Proof. split; [change (volume 4 [square] = 1); unfold square; rewrite square_volume; ring|]. right. right. vm_compute. auto 10. Qed.

(** C107. On a square with side 2 the column "< rho >" of a flow with density 1 is 4. *)
Theorem C107_global_averages_refuted : exists n nq ranks rho u, partition_of_unity n nq (concat ranks) /\ volume nq (concat ranks) = 4 /\
  forall it t, exists k, In (k, LMean ORho) (global_legend 2) /\ domain_mean nq (concat ranks) (at_point n rho) = 1 /\
    nth_error (global_row 2 n nq ranks it t rho u) (k - 1) = Some 4.
Proof. exact global_average_refuted. Qed.
Print Assumptions C107_global_averages_refuted.

(** C108. Apart from the time, every entry of the legend names the column it numbers (counting from 1), and every column
    from the third on has an entry. *)
Theorem C108_global_legend_partial : forall dim n nq ranks it t rho u, (dim = 2 \/ dim = 3)%nat ->
  let row := global_row dim n nq ranks it t rho u in
  (forall k x, In (k, x) (global_legend dim) -> x <> LTime -> (1 <= k)%nat /\
     nth_error row (k - 1) = Some (legend_integral dim n nq (concat ranks) it t rho u x)) /\
  (forall k, (3 <= k <= length row)%nat -> exists x, In (k, x) (global_legend dim) /\ x <> LTime).
Proof. exact legend_summary. Qed.
Print Assumptions C108_global_legend_partial.

(** C108. The legend says that the time is in column 3; it is in column 2, which has no entry. *)
Theorem C108_legend_time_refuted : forall dim, (dim = 2 \/ dim = 3)%nat ->
  (forall k, In (k, LTime) (global_legend dim) -> k = 3%nat) /\ In (3%nat, LTime) (global_legend dim) /\ (forall x, ~ In (2%nat, x) (global_legend dim)) /\
  (forall n nq ranks it t rho u, nth_error (global_row dim n nq ranks it t rho u) 1 = Some t /\
     nth_error (global_row dim n nq ranks it t rho u) 2 = Some (integral nq (concat ranks) (at_point n rho))).
Proof. exact legend_time_refuted. Qed.
Print Assumptions C108_legend_time_refuted.

(** C109. The columns of the compressible turbulence statistics: iteration, time, the integrals of the squared divergence
    and the squared vorticity weighted with the Sutherland factor, the largest Mach number, the integral of the temperature. *)
Theorem C109_compressible_columns : forall dim n nq ranks gamma it t rho u T, (dim = 2 \/ dim = 3)%nat ->
  let cells := concat ranks in
  (forall c q, In c cells -> (q < nq)%nat -> 0 < at_point n T c q) ->
  exists mach, compressible_row dim n nq ranks gamma it t rho u T =
    Some [IZR (Z.of_N it); t;
          integral nq cells (fun c q => sutherland_factor (at_point n T c q) * div dim n u c q ^ 2);
          integral nq cells (fun c q => sutherland_factor (at_point n T c q) * curl_sq dim n u c q);
          mach; integral nq cells (at_point n T)] /\
    (forall c q, In c cells -> (q < nq)%nat -> sqrt (speed_sq dim n u c q) / sqrt (gamma * at_point n T c q) <= mach) /\
    (cells <> [] -> (0 < nq)%nat -> 0 < gamma ->
     exists c q, In c cells /\ (q < nq)%nat /\ mach = sqrt (speed_sq dim n u c q) / sqrt (gamma * at_point n T c q)).
Proof. exact compressible_summary. Qed.
Print Assumptions C109_compressible_columns.

(** C109. The legend does not match the columns: entry 0 is the dilatation, column 0 the iteration; entry 2 is the Mach
    number, column 2 the dilatation. *)
Theorem C109_compressible_legend_refuted : exists dim n nq ranks gamma it t rho u T row, (dim = 2)%nat /\
  compressible_row dim n nq ranks gamma it t rho u T = Some row /\
  In (0%nat, KDilatation) compressible_legend /\ nth_error row 0 = Some 7 /\ (forall c q, In c (concat ranks) -> (q < nq)%nat -> div dim n u c q = 0) /\
  In (2%nat, KMaxMach) compressible_legend /\ nth_error row 2 = Some 0 /\ nth_error row 4 = Some 1.
Proof. exact compressible_legend_refuted. Qed.
Print Assumptions C109_compressible_legend_refuted.

(** C109. The total energy column ignores density and velocity: it is the same for two states whose total energies differ
    by more than a factor of 2. *)
Theorem C109_total_energy_refuted : exists dim n nq ranks gamma it t T rhoA uA rowA rhoB uB rowB, (dim = 2)%nat /\
  compressible_row dim n nq ranks gamma it t rhoA uA T = Some rowA /\ compressible_row dim n nq ranks gamma it t rhoB uB T = Some rowB /\
  nth_error rowA 5 = nth_error rowB 5 /\ nth_error rowA 5 <> None /\
  forall cv, 0 < cv -> let total rho u := integral nq (concat ranks) (fun c q => at_point n rho c q * (cv * at_point n T c q + speed_sq dim n u c q / 2)) in
    0 < total rhoA uA /\ total rhoB uB > 2 * total rhoA uA.
Proof. exact total_energy_refuted. Qed.
Print Assumptions C109_total_energy_refuted.

(** C110. Statistics in a plane: for the points pts of all processes in the plane, average is their arithmetic mean and
    rms^2 the mean of the squares minus the square of the mean; without a point the result is NaN. *)
Theorem C110_plane_statistics_partial : forall support dir x tol owned, NoDup (concat owned) ->
  forall pts, NoDup pts -> (forall i, In i pts <-> In i (concat owned) /\ Rabs (support i dir - x) < tol) ->
  forall u a, let r := plane_calculate (map (updatePlaneIndices support dir x tol) owned) u a in
  (pts = [] -> r = None) /\
  (pts <> [] -> exists av rms, r = Some (av, rms) /\ av = mean_of pts (u a) /\ 0 <= rms /\ rms ^ 2 = mean_of pts (fun i => u a i ^ 2) - av ^ 2).
Proof. exact plane_summary. Qed.
Print Assumptions C110_plane_statistics_partial.

(** C110. If different coordinates differ by at least d, the points of a plane have one and the same coordinate, and every
    point with the coordinate of the plane belongs to it. *)
Theorem C110_single_plane : forall support dir x d (dofs : list nat), 0 < d ->
  (forall i j, In i dofs -> In j dofs -> Rabs (support i dir - support j dir) < d -> support i dir = support j dir) ->
  (forall i, In i dofs -> support i dir = x -> In i (updatePlaneIndices support dir x (plane_tolerance d) dofs)) /\
  (forall i j, In i (updatePlaneIndices support dir x (plane_tolerance d) dofs) ->
     In j (updatePlaneIndices support dir x (plane_tolerance d) dofs) -> support i dir = support j dir).
Proof. exact single_plane. Qed.
Print Assumptions C110_single_plane.

Example C110_single_plane_nonvacuous : In 3%nat (updatePlaneIndices rows3 1 1 (plane_tolerance 1) [0; 1; 2; 3; 4; 5]%nat).
Proof.
  apply (proj1 (C110_single_plane rows3 1 1 1 [0; 1; 2; 3; 4; 5]%nat ltac:(lra)
    ltac:(intros i j _ _; unfold rows3; destruct (Nat.div i 2) as [|[|k]]; destruct (Nat.div j 2) as [|[|m]];
          unfold Rabs; destruct (Rcase_abs _); lra))).
  - simpl. auto 10.
  - crunch. reflexivity.
Qed.

(** C110. turbulence_table.txt: every column is what its header says. *)
Theorem C110_turbulence_table : forall dim n planes it t u, length (turb_row dim n planes it t u) = length (turb_header dim n) /\
  forall k col, nth_error (turb_header dim n) k = Some col ->
  nth_error (turb_row dim n planes it t u) k =
    Some match col with
         | TIteration => Some (IZR (Z.of_N it))
         | TTime => Some t
         | TAverage p d => option_map fst (plane_calculate (planes p) u d)
         | TRms p d => option_map snd (plane_calculate (planes p) u d)
         end.
Proof. exact turb_columns. Qed.
Print Assumptions C110_turbulence_table.

(** C110. A plane inside the domain can contain no degree of freedom: its statistics are NaN. *)
Theorem C110_empty_plane_refuted : exists support owned d x, 0 < d /\ NoDup (concat owned) /\ concat owned <> [] /\
  (forall i j, In i (concat owned) -> In j (concat owned) -> Rabs (support i 1%nat - support j 1%nat) < d -> support i 1%nat = support j 1%nat) /\
  (exists i j, In i (concat owned) /\ In j (concat owned) /\ support i 1%nat < x < support j 1%nat) /\
  forall u a, plane_calculate (map (updatePlaneIndices support 1 x (plane_tolerance d)) owned) u a = None.
Proof. exact plane_empty. Qed.
Print Assumptions C110_empty_plane_refuted.

(** C110. The average is not the mean over the plane: the profile 4 x (1 - x) on 0 <= x <= 1 has the mean 2/3, the average
    over the three points of a quadratic element is 1/3. *)
Theorem C110_plane_mean_refuted : exists (support : nat -> nat -> R) owned d (F : R -> R) u, NoDup (concat owned) /\ 0 < d /\
  (forall x, derivable_pt_lim F x (4 * x * (1 - x))) /\ F 1 - F 0 = 2/3 /\
  (forall i, In i (concat owned) -> support i 1%nat = 0 /\ u 0%nat i = 4 * support i 0%nat * (1 - support i 0%nat)) /\
  exists rms, plane_calculate (map (updatePlaneIndices support 1 0 (plane_tolerance d)) owned) u 0 = Some (1/3, rms).
Proof. exact plane_mean_refuted. Qed.
Print Assumptions C110_plane_mean_refuted.

(** C111. After any sequence of calls the Reynolds average is the arithmetic mean of all velocities passed in. *)
Theorem C111_reynolds_average : forall us, us <> [] -> forall a i,
  re_average (fold_left addToReynoldsStatistics us reynolds_init) a i = mean_of us (fun u : nat -> field => u a i).
Proof. exact reynolds_mean. Qed.
Print Assumptions C111_reynolds_average.

(** C111. At the end of a run it is the mean over the iterations from the first to the last one, each counted once. *)
Theorem C111_reynolds_average_of_run : forall X D (c : run_config) (o : solver_ops X D) fuel s0 s tr (V : nat -> nat -> field),
  run c o fuel s0 = Some (Ok (s, tr)) ->
  let a := sv_start s0 in let b := sv_i s in
  let r := reynolds_of_outputs V (map fst (reports_of tr)) in
  re_size r = (b - a + 1)%nat /\
  forall d i, re_average r d i = mean_of (seq a (b - a + 1)) (fun k => V k d i).
Proof. exact reynolds_run. Qed.
Print Assumptions C111_reynolds_average_of_run.

Example C111_nonvacuous : exists s tr, run (w_c 3 1) w_ops 4 (fresh w_x0 1) = Some (Ok (s, tr)) /\
  re_average (reynolds_of_outputs (fun k _ _ => INR k) (map fst (reports_of tr))) 0%nat 0%nat = 3/2.
Proof.
  destruct (w_run 3 ltac:(lia)) as (s & tr & E & Hi). exists s, tr. split; [exact E|].
  destruct (C111_reynolds_average_of_run _ _ _ _ _ _ _ _ (fun k _ _ => INR k) E) as [_ H]. rewrite H, Hi.
  change (sv_start (fresh w_x0 1)) with 0%nat. unfold mean_of. cbn [Nat.sub Nat.add seq suml length]. simpl INR. field.
Qed.
