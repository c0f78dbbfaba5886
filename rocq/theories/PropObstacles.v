(** C152, C153: flows around a cylinder and around a sphere. *)
From Verif Require Import Prelude ModelObstacles SpecObstacles ProofObstacles.
Local Open Scope R_scope.

(** ** C152: the cylinder.  The initial velocity has no sources and no rotation at every point the mesh can contain. *)
Theorem C152_potential : forall U x y, (97 / 100) * (97 / 100) < x * x + y * y ->
  potential_at (fun a b => val (cylinder_u U a b 0)) (fun a b => val (cylinder_u U a b 1)) x y.
Proof. exact cylinder_potential. Qed.
Print Assumptions C152_potential.
Example C152_potential_ex : potential_at (fun a b => val (cylinder_u 1 a b 0)) (fun a b => val (cylinder_u 1 a b 1)) 1 2 /\ val (cylinder_u 1 1 2 1) = - 1 / 25.
Proof. split; [apply C152_potential; lra|]. rewrite cylinder_u1 by lra. unfold cv. cbn [val]. field. Qed.

(** Values: the deviation from the inflow velocity decays like 1/r^2 and the density deviates by a quarter of
    Bernoulli's (U^2 - |u|^2) / 2. *)
Theorem C152_values : forall U x y, (97 / 100) * (97 / 100) <= x * x + y * y ->
  exists u v rho, cylinder_u U x y 0 = Ok u /\ cylinder_u U x y 1 = Ok v /\ cylinder_rho U x y = Ok rho /\
    4 * (rho - 1) + (u * u + v * v) / 2 = U * U / 2 /\
    (u - U) * (u - U) + v * v = (U / (4 * (x * x + y * y))) * (U / (4 * (x * x + y * y))) /\
    x * u + y * v = U * x * (1 - 1 / (4 * (x * x + y * y))).
Proof. exact bernoulli. Qed.
Print Assumptions C152_values.
Example C152_values_ex : cylinder_u 4 0 1 0 = Ok 5 /\ cylinder_rho 4 0 1 = Ok (- (1 / 8)).
Proof. rewrite cylinder_u0, cylinder_r by lra. unfold cu, cr. split; f_equal; field. Qed.

(** Points of the obstacle's boundary and of the chords between neighbouring points of it do not fail the assertion; points
    further inside do. *)
Theorem C152_defined : forall U a b t c, (c < 2)%nat -> Rabs (b - a) <= 2 * PI / INR cylinder_cells -> 0 <= t <= 1 ->
  let x := cylinder_radius * ((1 - t) * cos a + t * cos b) in let y := cylinder_radius * ((1 - t) * sin a + t * sin b) in
  (exists u, cylinder_u U x y c = Ok u) /\ (exists rho, cylinder_rho U x y = Ok rho).
Proof.
  intros U a b t c Hc Hab Ht. cbv zeta. unfold cylinder_radius. rewrite !Rmult_1_l. pose proof (chord a b t Hab Ht) as H.
  split; [|eexists; apply cylinder_r; exact H]. destruct c as [|[|c]]; [eexists; apply cylinder_u0; exact H|eexists; apply cylinder_u1; exact H|lia].
Qed.
Print Assumptions C152_defined.
Example C152_defined_ex : Rabs (2 * PI / 32 - 0) <= 2 * PI / INR cylinder_cells.
Proof. replace (INR cylinder_cells) with 32 by (unfold cylinder_cells; simpl; ring). rewrite Rminus_0_r, Rabs_right; [lra|pose proof PI_RGT_0; lra]. Qed.

Theorem C152_inside : forall U x y c, x * x + y * y < (97 / 100) * (97 / 100) -> cylinder_u U x y c = Throw /\ cylinder_rho U x y = Throw.
Proof. exact inside_throws. Qed.
Print Assumptions C152_inside.
Example C152_inside_ex : cylinder_u 1 (1 / 2) 0 0 = Throw.
Proof. apply C152_inside. lra. Qed.

(** The potential flow is that of a cylinder of half the size: the fluid starts by flowing through the obstacle's boundary. *)
Theorem C152_obstacle_refuted : exists U x y u v, 0 < U /\ x * x + y * y = cylinder_radius * cylinder_radius /\
  cylinder_u U x y 0 = Ok u /\ cylinder_u U x y 1 = Ok v /\ x * u + y * v <> 0.
Proof.
  exists 1, 1, 0, (cu 1 1 0), (cv 1 1 0). rewrite cylinder_u0, cylinder_u1 by lra. unfold cylinder_radius, cu, cv.
  repeat split; try lra.
Qed.
Print Assumptions C152_obstacle_refuted.

(** At no radius of the domain does the flow keep to the circle. *)
Theorem C152_no_circle : forall U r, U <> 0 -> 97 / 100 <= r -> exists x y u v, x * x + y * y = r * r /\
  cylinder_u U x y 0 = Ok u /\ cylinder_u U x y 1 = Ok v /\ x * u + y * v <> 0.
Proof.
  intros U r HU Hr. assert (Hq : (97 / 100) * (97 / 100) <= r * r + 0 * 0) by nra.
  destruct (C152_values U r 0 Hq) as (u & v & rho & Hu & Hv & _ & _ & _ & Hn).
  exists r, 0, u, v. split; [ring|]. split; [exact Hu|]. split; [exact Hv|]. rewrite Hn.
  assert (1 / (4 * (r * r + 0 * 0)) < 1). { apply Rmult_lt_reg_r with (4 * (r * r + 0 * 0)); [lra|]. unfold Rdiv. rewrite Rmult_assoc, Rinv_l by lra. lra. }
  apply Rmult_integral_contrapositive_currified; [apply Rmult_integral_contrapositive_currified; lra|lra].
Qed.
Print Assumptions C152_no_circle.
Example C152_no_circle_ex : 97 / 100 <= 3.
Proof. lra. Qed.

(** Velocity and density balance each other (steady flow without friction) exactly for the squared sound speed 4. *)
Theorem C152_pressure_partial : forall c2 U,
  (forall x y, (97 / 100) * (97 / 100) < x * x + y * y ->
    steady_euler_at c2 (fun a b => val (cylinder_u U a b 0)) (fun a b => val (cylinder_u U a b 1)) (fun a b => val (cylinder_rho U a b)) x y)
  <-> c2 = 4 \/ U = 0.
Proof. exact euler_iff. Qed.
Print Assumptions C152_pressure_partial.
Example C152_pressure_partial_ex : steady_euler_at 4 (fun a b => val (cylinder_u 1 a b 0)) (fun a b => val (cylinder_u 1 a b 1)) (fun a b => val (cylinder_rho 1 a b)) 2 1.
Proof. apply C152_pressure_partial; [left; reflexivity|lra]. Qed.

(** The squared sound speed of the program (unit scaling) is 1/3. *)
Theorem C152_pressure_refuted : exists U x y, (97 / 100) * (97 / 100) < x * x + y * y /\
  ~ steady_euler_at (sound_speed step9_scaling step9_gamma step9_T false * sound_speed step9_scaling step9_gamma step9_T false)
      (fun a b => val (cylinder_u U a b 0)) (fun a b => val (cylinder_u U a b 1)) (fun a b => val (cylinder_rho U a b)) x y.
Proof.
  exists 1, 1, 0. assert (F : far 1 0) by (unfold far; lra). split; [exact F|]. intros H. apply (cylinder_euler 1 1 0 F) in H.
  destruct H as [H _]. assert (E : sound_speed step9_scaling step9_gamma step9_T false * sound_speed step9_scaling step9_gamma step9_T false = 1 / 3).
  { unfold sound_speed, step9_scaling. transitivity (1 / (sqrt 3 * sqrt 3)); [field; pose proof sqrt3; lra|]. rewrite sqrt_sqrt; lra. }
  rewrite E in H. lra.
Qed.
Print Assumptions C152_pressure_refuted.

(** Mach number: reached in both cases; the number printed is right for the compressible solver only. *)
Theorem C152_mach : forall Ma c, mach (step9_velocity Ma c) (sound_speed step9_scaling step9_gamma step9_T c) = Ma /\
  step9_printed Ma c = (if c then Ma else Ma / sqrt (step9_gamma * step9_T)).
Proof. exact (fun Ma c => conj (step9_mach Ma c) (step9_print Ma c)). Qed.
Print Assumptions C152_mach.
Example C152_mach_ex : mach (step9_velocity (1 / 10) true) (sound_speed step9_scaling step9_gamma step9_T true) = 1 / 10.
Proof. apply C152_mach. Qed.

Theorem C152_printed_refuted : exists Ma c, step9_printed Ma c <> mach (step9_velocity Ma c) (sound_speed step9_scaling step9_gamma step9_T c).
Proof.
  exists 1, false. rewrite step9_mach, step9_print. unfold step9_gamma, step9_T. pose proof sqrt14 as H. intros E.
  assert (E' : sqrt (14 / 10 * 1) = 1). { replace (sqrt (14 / 10 * 1)) with (1 / (1 / sqrt (14 / 10 * 1))) by (field; lra). rewrite E. field. }
  pose proof (sqrt_sqrt (14 / 10 * 1)). rewrite E' in H0. lra.
Qed.
Print Assumptions C152_printed_refuted.

(** Reynolds number: the one asked for is formed with the radius; with the diameter it is twice as large. *)
Theorem C152_reynolds_partial : forall Ma Re c, Ma <> 0 -> Re <> 0%Z ->
  reynolds (step9_velocity Ma c) cylinder_radius (step9_viscosity Ma Re c) = IZR Re /\
  reynolds (step9_velocity Ma c) (2 * cylinder_radius) (step9_viscosity Ma Re c) = 2 * IZR Re.
Proof. exact step9_reynolds. Qed.
Print Assumptions C152_reynolds_partial.
Example C152_reynolds_partial_ex : reynolds (step9_velocity (1 / 10) false) cylinder_radius (step9_viscosity (1 / 10) 100 false) = 100.
Proof. apply C152_reynolds_partial; [lra|discriminate]. Qed.

Theorem C152_reynolds_refuted : exists Ma Re c, reynolds (step9_velocity Ma c) (2 * cylinder_radius) (step9_viscosity Ma Re c) <> IZR Re.
Proof. exists 1, 100%Z, false. rewrite (proj2 (step9_reynolds 1 100 false ltac:(lra) ltac:(discriminate))). lra. Qed.
Print Assumptions C152_reynolds_refuted.

(** ** C153: the sphere.  The blocks around the cube of the shell fill the domain and do not overlap. *)
Theorem C153_cover : forall x y z, IZR sphere_inlet <= x <= IZR sphere_outlet -> - IZR sphere_width <= y <= IZR sphere_width ->
  - IZR sphere_width <= z <= IZR sphere_width ->
  in_box (-1, 1)%Z (-1, 1)%Z (-1, 1)%Z x y z \/ exists i j k, In (i, j, k) sphere_blocks /\ in_box i j k x y z.
Proof. exact blocks_cover. Qed.
Print Assumptions C153_cover.
Example C153_cover_ex : in_box (3, 8)%Z (1, 5)%Z (-5, -1)%Z 4 2 (-3) /\ In ((3, 8), (1, 5), (-5, -1))%Z sphere_blocks.
Proof. split; [unfold in_box; cbn [fst snd]; lra|vm_compute; tauto]. Qed.

Theorem C153_disjoint : forall m n i j k i' j' k' x y z, (m < n)%nat ->
  nth_error (((-1, 1), (-1, 1), (-1, 1))%Z :: sphere_blocks) m = Some (i, j, k) ->
  nth_error (((-1, 1), (-1, 1), (-1, 1))%Z :: sphere_blocks) n = Some (i', j', k') ->
  inside_box i j k x y z -> inside_box i' j' k' x y z -> False.
Proof. exact blocks_disjoint. Qed.
Print Assumptions C153_disjoint.
Example C153_disjoint_ex : length sphere_blocks = 35%nat /\ inside_box (-1, 1)%Z (-1, 1)%Z (-1, 1)%Z 0 0 0.
Proof. split; [reflexivity|unfold inside_box; cbn [fst snd]; lra]. Qed.

(** The flow starts uniform, not as the potential flow: the fluid flows through the sphere. *)
Theorem C153_obstacle_refuted : exists U x y z u v w, 0 < U /\ x * x + y * y + z * z = sphere_radius * sphere_radius /\
  sphere_u U x y z 0 = Ok u /\ sphere_u U x y z 1 = Ok v /\ sphere_u U x y z 2 = Ok w /\ x * u + y * v + z * w <> 0.
Proof. exists 1, (1 / 2), 0, 0, 1, 0, 0. unfold sphere_radius. repeat split; lra. Qed.
Print Assumptions C153_obstacle_refuted.

(** Mach and Reynolds number (formed with the diameter) are those asked for. *)
Theorem C153_numbers_partial : forall Ma Re, 0 < Ma -> Re <> 0%Z -> exists U s nu, step_sphere Ma Re true = Some (U, s, nu) /\
  mach U (sound_speed s step_sphere_gamma 1 true) = Ma /\ reynolds U (2 * sphere_radius) nu = IZR Re.
Proof. exact sphere_numbers. Qed.
Print Assumptions C153_numbers_partial.
Example C153_numbers_partial_ex : exists U s nu, step_sphere (1 / 10) 100 true = Some (U, s, nu) /\ reynolds U (2 * sphere_radius) nu = 100.
Proof. destruct (C153_numbers_partial (1 / 10) 100) as (U & s & nu & H & _ & H'); [lra|discriminate|]. exists U, s, nu. split; assumption. Qed.

(** Without the option compressible nothing is simulated. *)
Theorem C153_default_refuted : exists Ma Re, 0 < Ma /\ (0 < Re)%Z /\ step_sphere Ma Re step_sphere_default = None.
Proof. exists (1 / 10), 100%Z. repeat split; lra. Qed.
Print Assumptions C153_default_refuted.
