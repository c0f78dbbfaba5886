(** C140, C141, C142: initial states and reference solutions of the compressible examples. *)
From Verif Require Import Prelude SpecBenchmarks ModelShocks SpecShocks ProofShocks ProofShocks2 ProofShocks3.
Local Open Scope R_scope.

(** ** C140: the density wave solves the Euler equations exactly for domains of length one and fluids at rest. *)
Theorem C140_euler_partial : forall L U gamma, 0 < L -> gamma <> 1 ->
  (euler gamma (sdp_density L U) (sdp_velocity U 0) (sdp_velocity U 1) (sdp_temperature L U) <-> L = 1 \/ U = 0).
Proof. exact (fun L U gamma HL Hg => wave_euler L U HL gamma Hg). Qed.
Print Assumptions C140_euler_partial.
Example C140_euler_partial_ex : sdp_density 1 1 0 (1 / 4) 0 = 1 /\ euler (14 / 10) (sdp_density 1 1) (sdp_velocity 1 0) (sdp_velocity 1 1) (sdp_temperature 1 1).
Proof.
  split; [|apply C140_euler_partial; lra]. unfold sdp_density. replace (2 * PI * 0 / 1 - 2 * PI * 1 * 0) with 0 by field. rewrite sin_0. ring.
Qed.

(** With the default length not. *)
Theorem C140_default_refuted : exists L U, L = sdp_default_L /\ ~ euler (14 / 10) (sdp_density L U) (sdp_velocity U 0) (sdp_velocity U 1) (sdp_temperature L U).
Proof. exists sdp_default_L, 1. split; [reflexivity|exact (default_wave (14 / 10))]. Qed.
Print Assumptions C140_default_refuted.

(** The pressure is constant, the density positive. *)
Theorem C140_pressure : forall L U x y t, 8 / 10 <= sdp_density L U x y t <= 12 / 10 /\
  gas_pressure (sdp_density L U x y t) (sdp_temperature L U x y t) = 1 / 3.
Proof. exact (fun L U x y t => conj (sdp_positive L U x y t) (sdp_pressure L U x y t)). Qed.
Print Assumptions C140_pressure.

(** ** C141: shock and vortex. *)
Theorem C141_shock : shock_conditions (1 / 10000000) (14 / 10) 0
  svi_densityLeft svi_velocityLeft svi_temperatureLeft svi_densityRight svi_velocityRight svi_temperatureRight.
Proof. exact standing_shock. Qed.
Print Assumptions C141_shock.

Theorem C141_states : forall steepness offset left right x, 0 < steepness -> left <> right ->
  (x <= offset -> Rabs (ramp steepness offset left right x - left) <= Rabs (right - left) * exp (2 * (steepness * (x - offset)))) /\
  (offset <= x -> Rabs (ramp steepness offset left right x - right) <= Rabs (right - left) * exp (- (2 * (steepness * (x - offset))))).
Proof. exact (fun s o l r x Hs Hl => conj (ramp_left s o l r x Hs Hl) (ramp_right s o l r x Hs Hl)). Qed.
Print Assumptions C141_states.
Example C141_states_ex : 0 < svi_steepness /\ svi_densityLeft <> svi_densityRight /\ ramp svi_steepness svi_shockPosition svi_densityLeft svi_densityRight 30 = 234161490 / 200000000.
Proof.
  split; [unfold svi_steepness; lra|]. split; [unfold svi_densityLeft, svi_densityRight; lra|].
  rewrite ramp_value by (unfold svi_densityLeft, svi_densityRight; lra). unfold svi_shockPosition. replace (svi_steepness * (30 - 30)) with 0 by ring.
  rewrite ProofBenchGrid.tanh_0. unfold svi_densityLeft, svi_densityRight. field.
Qed.

Theorem C141_vortex : forall ma x y, 0 < radius x y <= 5 -> 0 <= svi_temperature ma x y -> exists a b,
  svi_velocity ma x y 0 = Ok (ramp svi_steepness svi_shockPosition svi_velocityLeft svi_velocityRight x + a) /\ svi_velocity ma x y 1 = Ok b /\
  a * (x - 32) + b * (y - 12) = 0 /\
  a * a + b * b = ma * ma * (14 / 10 * svi_temperature ma x y / 3) * (radius x y * radius x y) * exp (1 - radius x y * radius x y).
Proof. exact vortex_velocity. Qed.
Print Assumptions C141_vortex.
Example C141_vortex_ex : radius (32 + 1) 12 = 1 /\ 0 <= svi_temperature 1 33 12.
Proof.
  split; [apply ray_radius; lra|]. destruct (weak_vortex 1 33 12 ltac:(lra)) as (rho & _ & _ & T & _). left. exact T.
Qed.

Theorem C141_isentropic : forall ma rho0 T0 r rho, 0 < rho0 -> 0 < T0 -> 0 <= r -> 0 < vortex_factor ma r -> vortex_density ma rho0 r = Ok rho ->
  vortex_temperature ma T0 r / T0 = Rpower (rho / rho0) (14 / 10 - 1).
Proof. exact vortex_isentropic. Qed.
Print Assumptions C141_isentropic.
Example C141_isentropic_ex : 0 < vortex_factor 1 0 /\ exists rho, vortex_density 1 1 0 = Ok rho.
Proof.
  assert (F : 0 < vortex_factor 1 0) by (apply factor_pos; lra). split; [exact F|]. eexists. apply density_value; [lra|exact F].
Qed.

(** The pressure gradient of the vortex is that of the speed with the temperature of the surroundings. *)
Theorem C141_equilibrium : forall ma rho0 T0 r, 0 < rho0 -> 0 < T0 -> 0 < r < 5 -> 0 < vortex_factor ma r -> exists rho,
  (forall s, 0 <= s -> 0 < vortex_factor ma s -> vortex_density ma rho0 s = Ok (rho s)) /\
  derivable_pt_lim (fun s => gas_pressure (rho s) (vortex_temperature ma T0 s)) r
    (rho r * (ma * ma * (14 / 10 * T0 / 3) * (r * r) * exp (1 - r * r)) / r) /\
  (radial_equilibrium rho (fun s => s * vortex_speed ma (vortex_temperature ma T0 s) * exp ((1 - s * s) / 2)) (vortex_temperature ma T0) r <-> ma = 0).
Proof. exact vortex_unbalanced. Qed.
Print Assumptions C141_equilibrium.

Theorem C141_equilibrium_refuted : exists ma r rho, 0 < r < 5 /\ (forall s, 0 <= s -> vortex_density ma 1 s = Ok (rho s)) /\
  ~ radial_equilibrium rho (fun s => s * vortex_speed ma (vortex_temperature ma 1 s) * exp ((1 - s * s) / 2)) (vortex_temperature ma 1) r.
Proof. exact vortex_refuted. Qed.
Print Assumptions C141_equilibrium_refuted.

Theorem C141_defined_partial : forall ma x y, ma * ma < 5 / 3 -> exists rho, svi_density ma x y = Ok rho /\ 0 < rho /\ 0 < svi_temperature ma x y /\
  (radius x y <> 0 -> forall component, exists u, svi_velocity ma x y component = Ok u).
Proof. exact weak_vortex. Qed.
Print Assumptions C141_defined_partial.

Theorem C141_strong_refuted : exists ma x y, svi_temperature ma x y < 0 /\ svi_density ma x y = UB.
Proof. exact (ex_intro _ 2 (ex_intro _ 32 (ex_intro _ 12 strong_vortex))). Qed.
Print Assumptions C141_strong_refuted.

Theorem C141_centre_refuted : exists x y, forall ma component, svi_velocity ma x y component = UB.
Proof. exact (ex_intro _ 32 (ex_intro _ 12 centre_undefined)). Qed.
Print Assumptions C141_centre_refuted.

(** The boundaries x = 0 and x = 60 are identified, but the density jumps there. *)
Theorem C141_periodic_refuted : forall ma y, exists a b, svi_density ma 0 y = Ok a /\ svi_density ma 60 y = Ok b /\ b + 1 / 3 < a.
Proof. exact seam. Qed.
Print Assumptions C141_periodic_refuted.

(** ** C142: shock tube and Riemann problem. *)
Theorem C142_sod : forall length x,
  (x <= length / 2 -> Rabs (sod_density length x - 8) <= 7 * exp (20000 * (x - length / 2)) /\ Rabs (sod_temperature length x - 5 / 4) <= 1 / 4 * exp (20000 * (x - length / 2))) /\
  (length / 2 <= x -> Rabs (sod_density length x - 1) <= 7 * exp (- (20000 * (x - length / 2))) /\ Rabs (sod_temperature length x - 1) <= 1 / 4 * exp (- (20000 * (x - length / 2)))).
Proof. exact (fun l x => conj (sod_left l x) (sod_right l x)). Qed.
Print Assumptions C142_sod.

Theorem C142_contacts : forall t a b, t <= 1 -> a <= 1 -> 1 < b ->
  (gas_pressure (riemann_density a t) (riemann_temperature a t) = gas_pressure (riemann_density b t) (riemann_temperature b t) /\ riemann_velocity a t 0 = riemann_velocity b t 0) /\
  (gas_pressure (riemann_density t a) (riemann_temperature t a) = gas_pressure (riemann_density t b) (riemann_temperature t b) /\ riemann_velocity t a 1 = riemann_velocity t b 1).
Proof.
  intros t a b Ht Ha Hb. destruct (riemann_contacts t) as [_ H]. destruct (H a b Ha Hb) as [A B]. exact (conj (A Ht) (B Ht)).
Qed.
Print Assumptions C142_contacts.

Theorem C142_symmetric : forall x y, riemann_density x y = riemann_density y x /\ riemann_temperature x y = riemann_temperature y x /\ riemann_velocity x y 0 = riemann_velocity y x 1.
Proof. exact riemann_symmetric. Qed.
Print Assumptions C142_symmetric.

(** The shocks satisfy the jump conditions to 0.00012 but not to 0.00011, because the pressure in the
    upper right quadrant is not 0.4. *)
Theorem C142_shock_partial : forall a b y, a <= 1 -> 1 < b -> 1 < y -> exists s u1 u2, riemann_velocity a y 0 = Ok u1 /\ riemann_velocity b y 0 = Ok u2 /\
  shock_conditions (12 / 100000) (14 / 10) s (riemann_density a y) u1 (riemann_temperature a y) (riemann_density b y) u2 (riemann_temperature b y).
Proof. exact riemann_shock. Qed.
Print Assumptions C142_shock_partial.

Theorem C142_shock_refuted : exists a b y u1 u2, riemann_velocity a y 0 = Ok u1 /\ riemann_velocity b y 0 = Ok u2 /\ forall s,
  ~ shock_conditions (11 / 100000) (14 / 10) s (riemann_density a y) u1 (riemann_temperature a y) (riemann_density b y) u2 (riemann_temperature b y).
Proof.
  destruct (riemann_states 0 2 2 ltac:(lra) ltac:(lra) ltac:(lra)) as (_ & _ & A & _ & _ & B).
  exists 0, 2, 2, (42008 / 100000), 0. split; [exact A|]. split; [exact B|]. intros s. apply riemann_shock_rough; [lra|lra|lra|exact A|exact B].
Qed.
Print Assumptions C142_shock_refuted.

Theorem C142_pressure_refuted : forall x y, 1 < x -> 1 < y ->
  4 / 10 + 2 / 10000 < 3 * gas_pressure (riemann_density x y) (riemann_temperature x y) < 4 / 10 + 3 / 10000.
Proof. exact riemann_upper. Qed.
Print Assumptions C142_pressure_refuted.
