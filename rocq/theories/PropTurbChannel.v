(** C145-C148: the turbulent channel, its random numbers and initial velocity; decaying turbulence and the
    mixing layer. *)
From Verif Require Import Prelude ModelTurbChannel ModelFlowStart SpecTurbChannel SpecBenchmarks
  ProofRandf ProofTurbChannel ProofTurbSummary ProofFlowStart.
Local Open Scope R_scope.

(** ** C145: set-up *)

(** The program drives the channel with the force for which every flow in balance has the friction Reynolds
    number asked for (any nonzero grid density). *)
Theorem C145_force : forall delta retau ucl recl lx lz g,
  0 < delta -> 0 <= retau -> 0 < ucl -> 0 < recl -> g <> 0 ->
  exists F, body_force (main_channel delta retau ucl recl lx lz g) = Some F /\
    forall tau, balanced F (2 * delta) tau -> friction_reynolds (ucl * delta / recl) delta (tau 0) = retau.
Proof. exact main_force. Qed.
Print Assumptions C145_force.
Example C145_force_ex : exists F tau,
  body_force (main_channel 1 180 10 3300 (4 * PI) (2 * PI) (8/10)) = Some F /\ 0 < F /\ balanced F 2 tau.
Proof. exact main_force_ex. Qed.

(** The mesh: for grid densities up to one the levels keep their order from wall to wall, lie symmetric, and
    the spacing at the wall is 1 - density of the even one. *)
Theorem C145_mesh : forall c x z, 0 < ch_height c -> Rabs (ch_density c) <= 1 ->
  keeps_order 0 1 0 (ch_height c) (fun y => snd (fst (transform c x y z))) /\
  (forall y, snd (fst (transform c x (1 - y) z)) = ch_height c - snd (fst (transform c x y z))) /\
  derivable_pt_lim (fun y => snd (fst (transform c x y z))) 0 (ch_height c * (1 - ch_density c)).
Proof. exact mesh_summary. Qed.
Print Assumptions C145_mesh.
Example C145_mesh_ex : let c := construct 1 180 10 2 6 3 true (8/10) in 0 < ch_height c /\ Rabs (ch_density c) <= 1.
Proof. exact mesh_ex. Qed.

(** Every density above one tangles the mesh: a level lies beyond the wall. *)
Theorem C145_tangled_refuted : forall c x z, 0 < ch_height c -> 1 < ch_density c ->
  exists y, 0 < y < 1 /\ snd (fst (transform c x y z)) < 0.
Proof. exact mesh_tangled. Qed.
Print Assumptions C145_tangled_refuted.

(** The option grid-density of the program does not reach the mesh: the wall spacing is 0.2 of the even one
    whatever is given; zero removes the walls, the periodicity and the force. *)
Theorem C145_density_refuted : forall delta retau ucl recl lx lz g, 0 < delta ->
  let c := main_channel delta retau ucl recl lx lz g in
  (forall x z l, derivable_pt_lim (fun y => snd (fst (transform c x y z))) 0 l -> l = 2 * delta * (2/10)) /\
  (g = 0 -> boundaries c = [] /\ body_force c = None) /\
  (g <> 0 -> boundaries c = [Periodic 0 1 0; Periodic 4 5 2; Wall 2 0 0 0 (85/100); Wall 3 0 0 0 (85/100)]).
Proof. exact density_ignored. Qed.
Print Assumptions C145_density_refuted.

(** The levels of the turbulence monitor lie at the images of 1/2, 1/8 and 1/32 for a half width 1/2; for the
    half width 1 (the default) the level of the centre line is the upper wall. *)
Theorem C145_monitor_partial : rms_coords (1/2) = map (trans 1 (8/10)) [1/2; 1/8; 1/32] /\ nth 0 (rms_coords (1/2)) 0 = 1/2.
Proof. exact monitor_half. Qed.
Print Assumptions C145_monitor_partial.
Theorem C145_monitor_refuted : nth 0 (rms_coords 1) 0 = 2 * 1 /\ nth 0 (rms_coords 1) 0 <> 1.
Proof. exact monitor_default. Qed.
Print Assumptions C145_monitor_refuted.

(** ** C146: random numbers *)

(** For every seed from -2147483646 to 0 and every number of draws: no overflow, no access out of range, all
    numbers strictly inside the interval, each a number of the sequence of Park and Miller by 2^31-1 (cut at
    1 - 1.2e-7), the seed left behind the last one of that sequence. *)
Theorem C146_randf : forall seed n lo hi, (-2147483646 <= seed <= 0)%Z -> lo < hi ->
  exists l g, randf_1 n lo hi seed (fresh_rng seed) = Ok (l, g) /\ length l = n /\
    ((0 < n)%nat -> g_seed g = lehmer (40 + n) (Z.max (- seed) 1)) /\
    forall v, In v l -> lo < v < hi /\
      exists k, (1 <= k)%nat /\
        v = lo + (hi - lo) * Rmin (IZR (lehmer k (Z.max (- seed) 1)) / 2147483647) (1 - 12/100000000).
Proof. exact randf_range. Qed.
Print Assumptions C146_randf.
Example C146_randf_ex : exists v g, randf_1 1 0 1 (-50) (fresh_rng (-50)) = Ok ([v], g) /\ 0 < v < 1 /\
  g_seed g = 755794586%Z.
Proof. exact randf_ex. Qed.

(** The angles of the modes: 0 to 2 pi and, for the polar angle, 0 to pi, ends excluded. *)
Theorem C146_angles : forall seed n, (-2147483646 <= seed <= 0)%Z ->
  exists ms g, angles n (fresh_rng seed) = Ok (ms, g) /\ length ms = n /\
    forall m, In m ms -> 0 < mo_fi m < 2 * PI /\ 0 < mo_psi m < 2 * PI /\ 0 < mo_alfa m < 2 * PI /\ 0 < mo_teta m < PI.
Proof. exact angles_ok. Qed.
Print Assumptions C146_angles.

(** The directions of the wave vectors are spread evenly over the sphere: longitude and height are linear in values of
    the generator (and so are the phase and the angle of the amplitude vector). *)
Theorem C146_sphere : forall seed n, (-2147483646 <= seed <= 0)%Z ->
  exists ms g, angles n (fresh_rng seed) = Ok (ms, g) /\ length ms = n /\
    forall m, In m ms -> uniform_value seed (mo_fi m / (2 * PI)) /\ uniform_value seed (mo_psi m / (2 * PI)) /\
      uniform_value seed (mo_alfa m / (2 * PI)) /\ uniform_value seed ((1 - k_dir m 2) / 2).
Proof. exact angles_uniform. Qed.
Print Assumptions C146_sphere.

(** "Call with idum a negative integer": the two least integers fail, one with zeros, one with an overflow. *)
Theorem C146_seed_refuted :
  (exists g, randf_1 1 0 1 (-2147483647) (fresh_rng (-2147483647)) = Ok ([0], g)) /\
  randf_1 1 0 1 (-2147483648) (fresh_rng (-2147483648)) = UB.
Proof. exact seed_witness. Qed.
Print Assumptions C146_seed_refuted.

(** ** C147: initial velocity *)

(** Every evaluation of the synthetic velocity writes behind the end of a vector. *)
Theorem C147_overrun_refuted : forall c ref_level rep_y x y z i, initial_velocity c ref_level rep_y x y z i = UB.
Proof. exact velocity_overrun. Qed.
Print Assumptions C147_overrun_refuted.

(** What the function computes if the vector had one more element: the sum of twelve waves with the
    midpoints of twelve equal bands from the least to the greatest wave number, the same at every point, with
    divergence zero; directions of the waves and of the velocities are unit vectors at right angles. *)
Theorem C147_synthetic_partial : forall s, exists ms, length ms = 12%nat /\
  (forall x y z i, synthetic 13 s x y z i =
     Ok (mode_sum s ms (map (fun m => (sp_wnr1 s + (sp_wnrn s - sp_wnr1 s) / 12 * (INR m + 1/2),
                                       (sp_wnrn s - sp_wnr1 s) / 12)) (seq 0 12)) x y z i)) /\
  forall ws, divergence_free3 (fun x y z => mode_sum s ms ws x y z 0) (fun x y z => mode_sum s ms ws x y z 1)
                              (fun x y z => mode_sum s ms ws x y z 2).
Proof. exact synthetic_summary. Qed.
Print Assumptions C147_synthetic_partial.
Theorem C147_modes : forall m,
  k_dir m 0 * s_dir m 0 + k_dir m 1 * s_dir m 1 + k_dir m 2 * s_dir m 2 = 0 /\
  k_dir m 0 ^ 2 + k_dir m 1 ^ 2 + k_dir m 2 ^ 2 = 1 /\ s_dir m 0 ^ 2 + s_dir m 1 ^ 2 + s_dir m 2 ^ 2 = 1.
Proof. exact modes_summary. Qed.
Print Assumptions C147_modes.

(** The curl taken with forward differences of any field has divergence zero in forward differences. *)
Theorem C147_curl : forall h f x y z, h <> 0 -> divergence_h h (incompressible_u h f) x y z = 0.
Proof. exact curl_divergence. Qed.
Print Assumptions C147_curl.
Example C147_curl_ex : let f := fun (i : nat) (x y z : R) => match i with 0%nat => y * z | 1%nat => x * x | _ => x * y end in
  incompressible_u 1 f 0 1 2 3 = 1 /\ incompressible_u 1 f 1 1 2 3 = 0 /\ incompressible_u 1 f 2 1 2 3 = 0.
Proof. exact curl_ex. Qed.

(** The mean profile on a channel whose height is the characteristic length (the program: half width 1/2):
    at rest at both walls, symmetric, nowhere backwards, the centre line velocity in the middle. *)
Theorem C147_mean_partial : forall c, ch_charlen c = ch_height c -> 0 < ch_height c -> 0 < ch_retau c -> 0 < ch_visc c ->
  0 <= ch_ucl c ->
  mean_u c 0 = 0 /\ mean_u c (ch_height c) = 0 /\ (forall y, mean_u c (ch_height c - y) = mean_u c y) /\
  (forall y, 0 <= y <= ch_height c -> 0 <= mean_u c y) /\
  (30 <= ch_retau c -> mean_u c (ch_height c / 2) = ch_ucl c).
Proof. exact mean_summary. Qed.
Print Assumptions C147_mean_partial.
Example C147_mean_ex : let c := main_channel (1/2) 180 10 3300 (4 * PI) (2 * PI) (8/10) in
  ch_charlen c = ch_height c /\ 0 < ch_height c /\ 0 < ch_retau c /\ 0 < ch_visc c /\ 0 <= ch_ucl c /\ 30 <= ch_retau c.
Proof. exact mean_ex. Qed.

(** With the defaults of the program (half width 1, height 2) the gas at the upper wall starts with 39 times
    the centre line velocity, backwards. *)
Theorem C147_mean_refuted : forall x z g, exists v,
  mean_profile (main_channel 1 180 10 3300 (4 * PI) (2 * PI) g) x 2 z 0 = Ok v /\ v < - 39 * 10.
Proof. exact mean_backwards. Qed.
Print Assumptions C147_mean_refuted.
(** The added waves do not vanish at the walls, for any channel. *)
Theorem C147_slip_refuted : forall c, 0 < ch_charlen c -> mean_profile c 0 0 0 0 = Ok (5/100).
Proof. exact slip_witness. Qed.
Print Assumptions C147_slip_refuted.

(** The initial temperature: that of the walls at the walls, above it and below 1.24 between, symmetric. *)
Theorem C147_temperature : forall c, 0 < ch_height c -> ch_periodic c = true ->
  (exists t, In (Wall 2 0 0 0 t) (boundaries c) /\ In (Wall 3 0 0 0 t) (boundaries c) /\
     temperature0 c 0 = t /\ temperature0 c (ch_height c) = t /\
     forall y, 0 < y < ch_height c -> t < temperature0 c y < 124/100) /\
  forall y, temperature0 c (ch_height c - y) = temperature0 c y.
Proof. exact temperature_summary. Qed.
Print Assumptions C147_temperature.

(** ** C148: decaying turbulence, mixing layer *)

(** For all drawn waves the field of one set of draws has divergence zero. *)
Theorem C148_waves : forall ds, divergence_free2 (fun x y _ => waves ds x y 0) (fun x y _ => waves ds x y 1).
Proof. exact waves_divergence. Qed.
Print Assumptions C148_waves.
Example C148_waves_ex : waves [(1/4, 1)] 1 0 0 <> 0.
Proof. exact waves_ex. Qed.

(** It does not fit the periodic square: values at opposite sides differ for some draws. *)
Theorem C148_periodic_refuted : exists gen, fst (sample gen 0 1 0 0) <> fst (sample gen 0 0 0 0).
Proof. exact periodic_witness. Qed.
Print Assumptions C148_periodic_refuted.
(** Two evaluations at one point differ, and the velocities the solver samples need not have divergence
    zero: the components are taken from different draws. *)
Theorem C148_function_refuted :
  (exists gen, fst (sample gen 0 1 0 0) <> fst (sample gen 1 1 0 0)) /\
  exists gen, ~ divergence_free2 (fun x y _ => fst (fst (sample_point gen 0 x y)))
                                 (fun x y _ => snd (fst (sample_point gen 0 x y))).
Proof. exact function_witness. Qed.
Print Assumptions C148_function_refuted.

(** The mixing layer is antisymmetric; at both boundaries it differs from the velocity imposed there. *)
Theorem C148_mixing : forall y u, mixing_velocity y 0 = Ok u -> mixing_velocity (- y) 0 = Ok (- u).
Proof. exact mixing_odd. Qed.
Print Assumptions C148_mixing.
Theorem C148_mixing_refuted : forall p v, In (p, v) mixing_walls ->
  exists u, mixing_velocity p 0 = Ok u /\ u <> v /\ Rabs (u - v) <= 2/5.
Proof. exact mixing_jump. Qed.
Print Assumptions C148_mixing_refuted.
