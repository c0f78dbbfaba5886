(** Properties C74-C80, C83: benchmark flows, their analytic solutions, forces and grids. *)
From Verif Require Import Prelude ModelBenchmarks SpecBenchmarks ProofDeriv ProofBenchTGV ProofBenchCouette ProofBenchChannel
  ProofBenchGrid ProofBenchAdvection ProofBenchInitial ProofBenchSummary.
Local Open Scope R_scope.

(** ** C74: Taylor-Green vortex in the plane *)

(** The analytic solution of TaylorGreenVortex2D with analytic density solves the incompressible Navier-Stokes
    equations, with the pressure of the ideal gas, exactly if the side length is 2 PI (the default). *)
Theorem C74_navier_stokes_partial : forall (f : tgv2) (u v rho : R -> R -> R -> R),
  (forall x y t, tgv2_velocity f 0 x y t = Ok (u x y t)) ->
  (forall x y t, tgv2_velocity f 1 x y t = Ok (v x y t)) ->
  (forall x y t, tgv2_density f 0 x y t = Ok (rho x y t)) ->
  tg_analytic f = true -> tg_cs f <> 0 -> tg_nu f <> 0 -> tg_L f <> 0 ->
  (navier_stokes (tg_nu f) u v (fun x y t => tg_cs f * tg_cs f * rho x y t) <-> tg_L f = 2 * PI).
Proof. exact taylor_green_iff. Qed.
Print Assumptions C74_navier_stokes_partial.

(** For every side length the velocity has divergence zero. *)
Theorem C74_divergence : forall (f : tgv2) (u v : R -> R -> R -> R),
  (forall x y t, tgv2_velocity f 0 x y t = Ok (u x y t)) ->
  (forall x y t, tgv2_velocity f 1 x y t = Ok (v x y t)) -> divergence_free2 u v.
Proof. exact taylor_green_divergence. Qed.
Print Assumptions C74_divergence.

(** Velocity and density fit the periodic boundaries of the square of side length L at all times. *)
Theorem C74_periodic : forall (f : tgv2) (u v rho : R -> R -> R -> R),
  (forall x y t, tgv2_velocity f 0 x y t = Ok (u x y t)) ->
  (forall x y t, tgv2_velocity f 1 x y t = Ok (v x y t)) ->
  (forall x y t, tgv2_density f 0 x y t = Ok (rho x y t)) -> tg_L f <> 0 ->
  forall x y t,
  (u (x + tg_L f) y t = u x y t /\ v (x + tg_L f) y t = v x y t /\ rho (x + tg_L f) y t = rho x y t) /\
  u x (y + tg_L f) t = u x y t /\ v x (y + tg_L f) t = v x y t /\ rho x (y + tg_L f) t = rho x y t.
Proof. exact taylor_green_periodic. Qed.
Print Assumptions C74_periodic.

(** The flow of viscosity 1/100 on the square of side length [L], sound speed 1, moving with velocity 1/10. *)
Definition tg_ex (analytic : bool) (L : R) : tgv2 :=
  {| tg_nu := 1 / 100; tg_cs := 1; tg_analytic := analytic; tg_U := 1 / 10; tg_L := L |}.
Definition value (r : outcome R) : R := match r with Ok v => v | _ => 0 end.

Example C74_nonvacuous : tgv2_construct (1 / 100) 1 true (2 * PI) = Ok (tgv2_setHorizontalVelocity 0 (tg_ex true (2 * PI))) /\
  navier_stokes (1 / 100) (fun x y t => value (tgv2_velocity (tg_ex true (2 * PI)) 0 x y t))
    (fun x y t => value (tgv2_velocity (tg_ex true (2 * PI)) 1 x y t))
    (fun x y t => 1 * 1 * value (tgv2_density (tg_ex true (2 * PI)) 0 x y t)).
Proof.
  split.
  - unfold tgv2_construct. destruct (Rlt_dec 0 (2 * PI)) as [|N]; [reflexivity|]. pose proof PI_RGT_0. lra.
  - apply (C74_navier_stokes_partial (tg_ex true (2 * PI))); intros; try reflexivity; cbn [tg_ex tg_cs tg_nu tg_L]; try lra.
    pose proof PI_RGT_0. lra.
Qed.

(** C74 for all side lengths: with L = 1 the constructor succeeds and the fields do not solve the equations. *)
Theorem C74_side_length_refuted : exists L f u v rho, 0 < L /\ tgv2_construct (1 / 100) 1 true L = Ok f /\
  (forall x y t, tgv2_velocity f 0 x y t = Ok (u x y t)) /\ (forall x y t, tgv2_velocity f 1 x y t = Ok (v x y t)) /\
  (forall x y t, tgv2_density f 0 x y t = Ok (rho x y t)) /\
  ~ navier_stokes (tg_nu f) u v (fun x y t => tg_cs f * tg_cs f * rho x y t).
Proof.
  set (f := tgv2_setHorizontalVelocity 0 (tg_ex true 1)).
  exists 1, f, (fun x y t => value (tgv2_velocity f 0 x y t)), (fun x y t => value (tgv2_velocity f 1 x y t)),
    (fun x y t => value (tgv2_density f 0 x y t)).
  split; [lra|split]; [unfold tgv2_construct; destruct (Rlt_dec 0 1) as [|N]; [reflexivity|lra]|].
  split; [reflexivity|split; [reflexivity|split; [reflexivity|]]]. intros H.
  apply (C74_navier_stokes_partial f) in H; try reflexivity; cbn [f tg_ex tgv2_setHorizontalVelocity tg_cs tg_nu tg_L] in *; try lra.
  pose proof PI2_3_2. lra.
Qed.
Print Assumptions C74_side_length_refuted.

(** C74 without the analytic density: the fields never solve the equations. *)
Theorem C74_constant_density : forall (f : tgv2) (u v rho : R -> R -> R -> R),
  (forall x y t, tgv2_velocity f 0 x y t = Ok (u x y t)) ->
  (forall x y t, tgv2_velocity f 1 x y t = Ok (v x y t)) ->
  (forall x y t, tgv2_density f 0 x y t = Ok (rho x y t)) ->
  tg_analytic f = false -> tg_L f <> 0 ->
  ~ navier_stokes (tg_nu f) u v (fun x y t => tg_cs f * tg_cs f * rho x y t).
Proof. exact taylor_green_constant_density. Qed.
Print Assumptions C74_constant_density.
Example C74_constant_density_nonvacuous : tgv2_construct (1 / 100) 1 false (2 * PI) = Ok (tgv2_setHorizontalVelocity 0 (tg_ex false (2 * PI))) /\
  tgv2_density (tg_ex false (2 * PI)) 0 5 7 3 = Ok 1.
Proof.
  split; [|reflexivity]. unfold tgv2_construct. destruct (Rlt_dec 0 (2 * PI)) as [|N]; [reflexivity|]. pose proof PI_RGT_0. lra.
Qed.

(** ** C75: Couette flow *)

(** The Fourier series of the flow started at time 0 converges at all positive times to a solution of the
    diffusion equation that is 0 at height 0, U at height L, and starts from rest: it tends to 0 with the time,
    uniformly at heights bounded away from the moving plate.  The analytic velocity of CouetteFlow2D is
    this solution up to 10^-15 U at all heights, for all times at least 10^-5 and at least L^2 / (10^7 nu).
    Before the time 10^-5 it is not (C75_early_refuted). *)
Theorem C75_couette_partial : forall f : couette, 0 < co_nu f -> 0 < co_L f ->
  exists w : R -> R -> R,
    (forall h t, 0 < t -> Un_cv (fun n => couette_series (co_nu f) (co_U f) (co_L f) n h t) (w h t)) /\
    diffusion (co_nu f) w /\
    (forall t, 0 < t -> w 0 t = 0 /\ w (couette2_plate f) t = co_U f) /\
    (forall h1 eps, h1 < couette2_plate f -> 0 < eps -> exists delta, 0 < delta /\
       forall h t, 0 <= h <= h1 -> 0 < t < delta -> Rabs (w h t) < eps) /\
    (forall x y time c, 1 / 100000 <= time + co_t0 f -> co_L f * co_L f <= 10 ^ 7 * co_nu f * (time + co_t0 f) ->
       couette2_velocity f 0 x y time = Ok c -> Rabs (c - w y (time + co_t0 f)) <= Rabs (co_U f) / 10 ^ 15).
Proof. exact couette_summary. Qed.
Print Assumptions C75_couette_partial.

(** At the plates the analytic velocity is that of the walls at all times. *)
Theorem C75_walls : forall (f : couette) (x time : R) component, 1 / 100000 < co_L f -> (component < 2)%nat ->
  couette2_velocity f component x 0 time = Ok (couette_wall_bottom f component) /\
  couette2_velocity f component x (couette2_plate f) time = Ok (couette_wall_top f component).
Proof. exact couette_walls. Qed.
Print Assumptions C75_walls.

(** Before 10^-5 time units the fluid is always taken to be at rest, also if it has come up to speed: viscosity 10^7,
    velocity and distance of the plates 1, time 10^-6. *)
Theorem C75_early_refuted : exists f : couette, 0 < co_nu f /\ 0 < co_L f /\
  forall w, (forall h t, 0 < t -> Un_cv (fun n => couette_series (co_nu f) (co_U f) (co_L f) n h t) (w h t)) ->
  exists y time, 0 < time /\ 0 < y < couette2_plate f /\ couette2_velocity f 0 0 y time = Ok 0 /\
    2 / 5 * co_U f < w y (time + co_t0 f).
Proof. exact couette_early_witness. Qed.
Print Assumptions C75_early_refuted.

Definition co_ex (L : R) : couette := {| co_nu := 1 / 10; co_U := 1 / 20; co_L := L; co_t0 := 0 |}.
Example C75_nonvacuous : 0 < co_nu (co_ex 1) /\ 1 / 100000 < co_L (co_ex 1) /\ 1 / 100000 <= 2 + co_t0 (co_ex 1) /\
  co_L (co_ex 1) * co_L (co_ex 1) <= 10 ^ 7 * co_nu (co_ex 1) * (2 + co_t0 (co_ex 1)).
Proof. cbn [co_ex co_nu co_L co_t0]. repeat split; lra. Qed.

(** The three-dimensional flow with length 2: the plate, at height 1, moves with velocity 1/20, the analytic velocity
    there is 0 at time 0. *)
Theorem C75_three_dimensions_refuted : exists f x y, 0 < co_nu f /\ 0 < co_L f /\ couette_wall_top f 0 <> 0 /\
  couette3_velocity f 0 x y (couette3_plate f) 0 = Ok 0.
Proof.
  exists (co_ex 2), 0, 0. split; [cbn; lra|split; [cbn; lra|split; [cbn; lra|]]].
  apply couette3_start; cbn [co_ex co_L co_t0]; lra.
Qed.
Print Assumptions C75_three_dimensions_refuted.

(** ** C76: Poiseuille flow *)

(** The force of the Poiseuille flows drives exactly the parabolic steady flow with the requested bulk velocity:
    every steady flow between the walls is this one, and there is one. *)
Theorem C76_bulk_velocity : forall (nu u_bulk height : R) (f : poiseuille), 0 < height -> nu <> 0 ->
  poiseuille_construct nu u_bulk height true = Ok f ->
  (exists u, steady_channel (po_nu f) (po_force f) (po_height f) u) /\
  forall u, steady_channel (po_nu f) (po_force f) (po_height f) u ->
    mean_over 0 height u u_bulk /\ (forall y, 0 <= y <= height -> u y = 6 * u_bulk * y * (height - y) / (height * height)) /\
    u (height / 2) = po_uMax f.
Proof. exact poiseuille_summary. Qed.
Print Assumptions C76_bulk_velocity.
Example C76_nonvacuous : exists f, poiseuille_construct (1 / 10) 2 3 true = Ok f /\ po_uMax f = 3 /\ po_force f = 24 / 90.
Proof. eexists. split; [reflexivity|]. cbn [po_uMax po_force]. split; field. Qed.

(** The mean over an interval is determined by the profile. *)
Theorem C76_mean_unique : forall a b u m m', a < b -> mean_over a b u m -> mean_over a b u m' -> m = m'.
Proof. exact mean_unique. Qed.
Print Assumptions C76_mean_unique.

(** The velocity the benchmark gives as initial and reference value is not that flow: it is 0 everywhere. *)
Theorem C76_analytic_refuted : exists (nu u_bulk height : R) f u, 0 < height /\ nu <> 0 /\
  poiseuille_construct nu u_bulk height true = Ok f /\
  (forall y time, poiseuille_velocity 2 f 0 y time = Ok (u y)) /\
  ~ steady_channel (po_nu f) (po_force f) (po_height f) u /\ mean_over 0 height u 0 /\ u_bulk = 2.
Proof.
  exists (1 / 10), 2, 3. eexists. exists (fun _ => 0). split; [lra|split; [lra|split; [reflexivity|split; [reflexivity|]]]].
  rewrite and_assoc_swap. split; [|reflexivity].
  eapply (poiseuille_analytic_wrong 2 (1 / 10) 2 3 _ (fun _ => 0) 0); try lra; try lia; try reflexivity.
Qed.
Print Assumptions C76_analytic_refuted.

(** ** C77: Taylor-Green vortex in space *)

(** The initial velocity of TaylorGreenVortex3D has divergence zero, and the initial density belongs to a pressure
    that solves the pressure equation of this velocity, with the ideal gas law of the incompressible or of the
    compressible solver. *)
Theorem C77_divergence : forall u v w : R -> R -> R -> R,
  (forall x y z, tgv3_velocity 0 x y z = Ok (u x y z)) -> (forall x y z, tgv3_velocity 1 x y z = Ok (v x y z)) ->
  (forall x y z, tgv3_velocity 2 x y z = Ok (w x y z)) -> divergence_free3 u v w.
Proof. exact taylor_green3_divergence. Qed.
Print Assumptions C77_divergence.

Theorem C77_pressure : forall (f : tgv3) (u v w rho : R -> R -> R -> R),
  (forall x y z, tgv3_velocity 0 x y z = Ok (u x y z)) -> (forall x y z, tgv3_velocity 1 x y z = Ok (v x y z)) ->
  (forall x y z, tgv3_velocity 2 x y z = Ok (w x y z)) -> (forall x y z, tgv3_density f 0 x y z = Ok (rho x y z)) ->
  t3_analytic f = true -> t3_compressible f = false -> t3_cs f <> 0 ->
  pressure_poisson u v w (fun x y z => t3_cs f * t3_cs f * rho x y z).
Proof. exact taylor_green3_pressure. Qed.
Print Assumptions C77_pressure.

Theorem C77_pressure_compressible : forall (f : tgv3) (u v w rho : R -> R -> R -> R),
  (forall x y z, tgv3_velocity 0 x y z = Ok (u x y z)) -> (forall x y z, tgv3_velocity 1 x y z = Ok (v x y z)) ->
  (forall x y z, tgv3_velocity 2 x y z = Ok (w x y z)) -> (forall x y z, tgv3_density f 0 x y z = Ok (rho x y z)) ->
  t3_analytic f = true -> t3_compressible f = true -> t3_numerator f <> 0 ->
  pressure_poisson u v w (fun x y z => rho x y z / t3_numerator f).
Proof. exact taylor_green3_compressible. Qed.
Print Assumptions C77_pressure_compressible.

(** Velocity and density fit the periodic boundaries of the cube of side length 2 PI. *)
Theorem C77_periodic : forall (f : tgv3) (u v rho : R -> R -> R -> R),
  (forall x y z, tgv3_velocity 0 x y z = Ok (u x y z)) -> (forall x y z, tgv3_velocity 1 x y z = Ok (v x y z)) ->
  (forall x y z, tgv3_density f 0 x y z = Ok (rho x y z)) ->
  forall x y z,
  (u (x + 2 * PI) y z = u x y z /\ u x (y + 2 * PI) z = u x y z /\ u x y (z + 2 * PI) = u x y z) /\
  (v (x + 2 * PI) y z = v x y z /\ v x (y + 2 * PI) z = v x y z /\ v x y (z + 2 * PI) = v x y z) /\
  rho (x + 2 * PI) y z = rho x y z /\ rho x (y + 2 * PI) z = rho x y z /\ rho x y (z + 2 * PI) = rho x y z.
Proof. exact taylor_green3_periodic. Qed.
Print Assumptions C77_periodic.

Example C77_nonvacuous : forall x y z, exists a b c d,
  tgv3_velocity 0 x y z = Ok a /\ tgv3_velocity 1 x y z = Ok b /\ tgv3_velocity 2 x y z = Ok c /\
  tgv3_density {| t3_cs := 2; t3_analytic := true; t3_compressible := false; t3_numerator := 1 |} 0 x y z = Ok d.
Proof. intros. do 4 eexists. repeat split; reflexivity. Qed.
Example C77_values : tgv3_velocity 0 0 0 0 = Ok (sin 0 * cos 0 * cos 0) /\
  tgv3_density {| t3_cs := 2; t3_analytic := true; t3_compressible := false; t3_numerator := 1 |} 0 0 0 0 = Ok (1 + 6 / 16 / 4).
Proof.
  split; [reflexivity|]. cbn [tgv3_density t3_analytic t3_compressible t3_cs]. f_equal.
  replace (2 * 0) with 0 by ring. rewrite cos_0. field.
Qed.

(** ** C78: transformations of the grids *)

(** ShearLayer2D, Riemann2D: with transformation factors below 1 in absolute value each coordinate of the unit interval is
    mapped onto the unit interval in the same order. *)
Theorem C78_shear : forall a : R, Rabs a < 1 -> keeps_order 0 1 0 1 (fun y => shear_trans y a).
Proof. exact shear_order. Qed.
Print Assumptions C78_shear.

(** CouetteFlow2D, unstructured grid on the unit square. *)
Theorem C78_couette : keeps_order 0 1 0 1 (fun y => snd (couette2_grid true (1 / 3, y))) /\
  forall p, fst (couette2_grid true p) = fst p /\ snd (couette2_grid true p) = snd (couette2_grid true (1 / 3, snd p)).
Proof. exact couette2_grid_order. Qed.
Print Assumptions C78_couette.

(** SinusoidalShear2D: moderate amplitudes below the height map the unit square one-to-one, sides to sides. *)
Theorem C78_sinusoidal : forall (height ampl wavelength : R) (g : R * R -> R * R),
  (forall p, sinus_grid height ampl wavelength p = Ok (g p)) ->
  Rabs ampl <= 3 / 2 -> Rabs ampl < height -> 0 < wavelength ->
  one_to_one_on 1 1 g /\
  (forall y, keeps_order 0 1 0 wavelength (fun x => fst (g (x, y)))) /\
  (forall x, keeps_order 0 1 0 (height + ampl * sin (2 * PI * (fst (g (x, 0)) / wavelength))) (fun y => snd (g (x, y)))).
Proof. exact sinus_summary. Qed.
Print Assumptions C78_sinusoidal.

(** LubricationSine: amplitude and roughness together below the height. *)
Theorem C78_lubrication : forall (height ampl wavelength roughness : R) (ratio : nat) (g : R * R -> R * R),
  (forall p, lubri_grid height ampl wavelength roughness ratio p = Ok (g p)) ->
  Rabs ampl + Rabs roughness < height -> 0 < wavelength ->
  one_to_one_on wavelength height g /\
  (forall y, keeps_order 0 wavelength 0 wavelength (fun x => fst (g (x, y)))) /\
  (forall x, keeps_order 0 height 0 (lubri_upper height ampl wavelength roughness ratio (fst (g (x, 0)))) (fun y => snd (g (x, y)))).
Proof. exact lubri_summary. Qed.
Print Assumptions C78_lubrication.

Definition total (f : R * R -> outcome (R * R)) (p : R * R) : R * R := match f p with Ok q => q | _ => (0, 0) end.
Example C78_nonvacuous : Rabs (1 / 2) < 1 /\
  (forall p, sinus_grid 1 (3 / 10) 2 p = Ok (total (sinus_grid 1 (3 / 10) 2) p)) /\ Rabs (3 / 10) <= 3 / 2 /\ Rabs (3 / 10) < 1 /\
  (forall p, lubri_grid 1 (3 / 10) 2 (1 / 10) 5 p = Ok (total (lubri_grid 1 (3 / 10) 2 (1 / 10) 5) p)) /\ Rabs (3 / 10) + Rabs (1 / 10) < 1.
Proof.
  rewrite !Rabs_pos_eq by lra. unfold total, sinus_grid, lubri_grid. destruct (Rlt_dec (3 / 10) 1) as [|N]; [|lra].
  repeat split; lra.
Qed.

(** Grids that pass the assertions of the code and are turned over or folded. *)
Theorem C78_refuted :
  (exists f x, 0 < co_L f /\ snd (couette2_grid true (x, couette2_plate f)) < couette2_plate f) /\
  (exists height ampl x q, ampl < height /\ 0 < x < 1 /\ sinus_grid height ampl 1 (x, 0) = Ok q /\ fst q < 0) /\
  (exists height ampl x q, ampl < height /\ 0 < x < 1 /\ sinus_grid height ampl 1 (x, 1) = Ok q /\ snd q < 0) /\
  (exists height ampl roughness x q, ampl < height /\ roughness < height /\ 0 < x < 1 /\
     lubri_grid height ampl 1 roughness 1 (x, height) = Ok q /\ snd q < 0) /\
  (forall p, couette3_grid true p = Throw).
Proof. exact grids_refuted. Qed.
Print Assumptions C78_refuted.

(** ** C79: the advection benchmark *)

(** The analytic solution of AdvectionBenchmark solves the advection equation with velocity 1 and period 1, from
    the documented initial profile; the evaluation ends at every point and time. *)
Theorem C79_analytic : forall (smooth : bool),
  (forall time x, exists fuel0 a, forall fuel, (fuel0 <= fuel)%nat -> adv_analytic fuel time x smooth = Some a) /\
  forall a : R -> R -> R, (forall x t, exists fuel, adv_analytic fuel t x smooth = Some (a x t)) ->
  (forall x t, exists l, derivable_pt_lim (fun y => a y t) x l /\ derivable_pt_lim (fun r => a x r) t (- l)) /\
  (forall t, periodic 1 (fun x => a x t)) /\
  (forall x, a x 0 = (if smooth then sin (2 * PI * x) else sin (2 * PI * x) * Rabs (sin (2 * PI * x)))).
Proof. exact advection_summary. Qed.
Print Assumptions C79_analytic.

(** The time loop of the benchmark makes the n steps that first reach the end time, and the time is n dt; not with
    output to the standard directory and a time integrator. *)
Theorem C79_time_loop_partial : forall (F : Type) (semi out : bool) (dt t_end : R) (transport : F -> F) (f : F),
  0 < dt -> semi = true \/ out = false ->
  exists fuel n, adv_loop semi out dt t_end transport fuel f 0 0 = Some (Nat.iter n transport f, INR n * dt, n) /\
    t_end <= INR n * dt /\ (n <> 0%nat -> INR n * dt - dt < t_end).
Proof. exact adv_loop_complete. Qed.
Print Assumptions C79_time_loop_partial.

Theorem C79_output_refuted : forall (F : Type) (transport : F -> F) (f : F), exists dt t_end fuel t n,
  0 < dt /\ adv_loop false true dt t_end transport fuel f 0 0 = Some (Nat.iter n transport f, t, n) /\
  t <> INR n * dt /\ INR n * dt < t_end.
Proof.
  intros. exists (1 / 10), 1, 4%nat, (15 / 10), 4%nat. split; [lra|split; [apply adv_loop_output|]]. cbn [INR]. split; lra.
Qed.
Print Assumptions C79_output_refuted.
Example C79_nonvacuous : exists fuel, adv_analytic fuel (5 / 2) (1 / 2) true = Some (sin (8 * (PI / 4) * (1 / 2 - 5 / 2) * 1)).
Proof. destruct (analytic_ends (5 / 2) (1 / 2)) as [n H]. exists n. rewrite H by lia. reflexivity. Qed.

(** ** C80: backward facing step *)

(** The inflow profile vanishes at the step and at the upper wall, has the requested mean, and lies between 0 and 3/2 of it. *)
Theorem C80_inflow : forall (h_step h_domain u_av : R) (u : R -> R), h_step < h_domain ->
  (forall y, bfs_inflow h_step h_domain u_av 0 0 y = Ok (u y)) ->
  u h_step = 0 /\ u h_domain = 0 /\ mean_over h_step h_domain u u_av /\
  (0 <= u_av -> forall y, h_step <= y <= h_domain -> 0 <= u y <= 3 / 2 * u_av).
Proof. exact bfs_inflow_profile. Qed.
Print Assumptions C80_inflow.
Example C80_nonvacuous : (1 < 2) /\ forall y, bfs_inflow 1 2 3 0 0 y = Ok (- 3 * (3 / 2) * 4 * (y - 2) * (y - 1) / (2 - 1) ^ 2).
Proof. split; [lra|reflexivity]. Qed.

(** The constructor reads members before they are initialised, for all arguments; the density it would install is 0. *)
Theorem C80_construct_refuted : forall a b c d : R, bfs_construct a b c d = UB.
Proof. exact bfs_construct_UB. Qed.
Print Assumptions C80_construct_refuted.
Theorem C80_density_refuted : exists x y r, if_rho bfs_fields 0 x y = Ok r /\ ~ 0 < r.
Proof. exists 0, 0, 0. split; [reflexivity|lra]. Qed.
Print Assumptions C80_density_refuted.
Example C80_grid_of_members : bfs_makeGrid {| bm_LDomain := Some 9; bm_LStep := Some 4; bm_HDomain := Some 2; bm_HStep := Some 1 |} =
  Ok [(0, 1, 4, 2); (4, 1, 9, 2); (4, 0, 9, 1)].
Proof. reflexivity. Qed.

(** ** C83: initial states of the shear layer and the droplet *)

(** The initial velocity of ShearLayer2D is continuous, has divergence zero, fits the periodic boundaries of the unit
    square and is bounded by the parameters. *)
Theorem C83_shear_layer : forall (u0 kappa perturbation : R) (u v : R -> R -> R -> R),
  (forall x y t, shear_velocity u0 kappa perturbation 0 x y = Ok (u x y t)) ->
  (forall x y t, shear_velocity u0 kappa perturbation 1 x y = Ok (v x y t)) ->
  divergence_free2 u v /\
  (forall x y t, u 0 y t = u 1 y t /\ v 0 y t = v 1 y t /\ u x 0 t = u x 1 t /\ v x 0 t = v x 1 t) /\
  (forall x y t, continuity_pt (fun s => u s y t) x /\ continuity_pt (fun s => u x s t) y /\
                 continuity_pt (fun s => v s y t) x /\ continuity_pt (fun s => v x s t) y) /\
  (forall x y t, Rabs (u x y t) <= Rabs u0 /\ Rabs (v x y t) <= Rabs perturbation * Rabs u0).
Proof. exact shear_summary. Qed.
Print Assumptions C83_shear_layer.
Example C83_nonvacuous : exists a b, shear_velocity 1 80 (1 / 20) 0 (1 / 4) (1 / 4) = Ok a /\ a = 0 /\
  shear_velocity 1 80 (1 / 20) 1 0 0 = Ok b /\ b = 1 / 20.
Proof.
  unfold shear_velocity. destruct (Rle_dec (1 / 4) (1 / 2)) as [|N]; [|lra]. do 2 eexists. split; [reflexivity|split; [|split; [reflexivity|]]].
  - replace (80 * (1 / 4 - 1 / 4)) with 0 by ring. rewrite tanh_0. ring.
  - replace (8 * (PI / 4) * (0 + 1 / 4)) with (PI / 2) by field. rewrite sin_PI2. ring.
Qed.

(** The initial density of Droplet2D lies strictly between those of gas and liquid, agrees on opposite sides of the domain,
    decreases with the distance from the centre and has the mean of the two at the radius R0. *)
Theorem C83_droplet : forall (l h rho_l rho_g W R0 : R) (rho : R -> R -> R),
  (forall x y, droplet_density l h rho_l rho_g W R0 0 x y = Ok (rho x y)) -> rho_g < rho_l -> 0 < W ->
  let dist x y := sqrt ((x - l / 2) ^ 2 + (y - h / 2) ^ 2) in
  (forall x y, rho_g < rho x y < rho_l) /\
  (forall x y, rho 0 y = rho l y /\ rho x 0 = rho x h) /\
  (forall x y x' y', dist x y < dist x' y' -> rho x' y' < rho x y) /\
  (forall x y, dist x y = R0 -> rho x y = (rho_l + rho_g) / 2).
Proof. exact droplet_summary. Qed.
Print Assumptions C83_droplet.
Example C83_droplet_nonvacuous : forall x y, exists r, droplet_density 1 2 7 1 (1 / 10) (1 / 4) 0 x y = Ok r.
Proof. intros. eexists. reflexivity. Qed.
