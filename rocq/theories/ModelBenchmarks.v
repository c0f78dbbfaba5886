(** Model of the benchmark flows in /repo/src/library/natrium/benchmarks: the analytic
    solutions and initial fields handed to the solver, the driving forces, and the
    transformations applied to the grids.  Doubles are real numbers; [M_PI] and
    [4*atan(1)] are [PI]; a [dealii::Function] is a function of the point, the
    component and the time set by [set_time]. *)
From Verif Require Import Prelude.
Local Open Scope R_scope.

(** ** TaylorGreenVortex2D *)

(** Members of TaylorGreenVortex2D (TaylorGreenVortex2D.h:81-92) and the viscosity of
    the problem description. *)
Record tgv2 := {
  tg_nu : R;          (* getViscosity() *)
  tg_cs : R;          (* m_cs *)
  tg_analytic : bool; (* m_analyticInit *)
  tg_U : R;           (* m_horizontalVelocity *)
  tg_L : R            (* m_L *)
}.

(** TaylorGreenVortex2D.cpp:20-31 and TaylorGreenVortex2D.h:54-55: the constructor.  The
    assertion is evaluated after everything else; the mesh is the square [0,L]^2 with both pairs of sides
    periodic (66-103). *)
Definition tgv2_construct (viscosity cs : R) (init_rho_analytically : bool) (L : R) : outcome tgv2 :=
  if Rlt_dec 0 L
  then Ok {| tg_nu := viscosity; tg_cs := cs; tg_analytic := init_rho_analytically; tg_U := 0; tg_L := L |}
  else Throw.

(** TaylorGreenVortex2D.h:73-75. *)
Definition tgv2_setHorizontalVelocity (u : R) (f : tgv2) : tgv2 :=
  {| tg_nu := tg_nu f; tg_cs := tg_cs f; tg_analytic := tg_analytic f; tg_U := u; tg_L := tg_L f |}.

(** TaylorGreenVortex2D.cpp:36-47. *)
Definition tgv2_velocity (f : tgv2) (component : nat) (x y t : R) : outcome R :=
  match component with
  | O => Ok (tg_U f + sin (x * (2 * PI) / tg_L f - tg_U f * t) * cos (y * (2 * PI) / tg_L f)
             * exp (-2 * tg_nu f * t * (2 * PI) / tg_L f))
  | S O => Ok (- cos (x * (2 * PI) / tg_L f - tg_U f * t) * sin (y * (2 * PI) / tg_L f)
               * exp (-2 * tg_nu f * t * (2 * PI) / tg_L f))
  | _ => Throw
  end.

(** TaylorGreenVortex2D.cpp:49-60. *)
Definition tgv2_density (f : tgv2) (component : nat) (x y t : R) : outcome R :=
  match component with
  | O =>
      if tg_analytic f then
        let rho0 := 1 in
        let p := rho0 / 4 * (cos (2 * (x * (2 * PI) / tg_L f - tg_U f * t)) + cos (2 * y * (2 * PI) / tg_L f))
                 * exp (-4 * tg_nu f * t * (2 * PI) / tg_L f) in
        Ok (rho0 + p / (tg_cs f * tg_cs f))
      else Ok 1
  | _ => Throw
  end.

(** ** TaylorGreenVortex3D *)

(** TaylorGreenVortex3D.h:84-89; the mesh is the cube [0,2 PI]^3, periodic in all directions
    (TaylorGreenVortex3D.cpp:78-125). *)
Record tgv3 := {
  t3_cs : R;
  t3_analytic : bool;
  t3_compressible : bool;
  t3_numerator : R    (* m_densityNumerator *)
}.

(** TaylorGreenVortex3D.cpp:38-48. *)
Definition tgv3_velocity (component : nat) (x y z : R) : outcome R :=
  match component with
  | O => Ok (sin x * cos y * cos z)
  | S O => Ok (- cos x * sin y * cos z)
  | S (S O) => Ok 0
  | _ => Throw
  end.

(** TaylorGreenVortex3D.cpp:50-62. *)
Definition tgv3_density (f : tgv3) (component : nat) (x y z : R) : outcome R :=
  match component with
  | O =>
      if t3_analytic f then
        let p := 1 / 16 * (cos (2 * x) + cos (2 * y)) * (cos (2 * z) + 2) in
        if t3_compressible f then Ok (1 + p * t3_numerator f)
        else Ok (1 + p / (t3_cs f * t3_cs f))
      else Ok 1
  | _ => Throw
  end.

(** ** Couette flow *)

(** CouetteFlow2D.h:62-68, CouetteFlow3D.h; L is the characteristic length, U the velocity of
    the upper plate. *)
Record couette := {
  co_nu : R;
  co_U : R;      (* getCharacteristicVelocity() = m_topPlateVelocity *)
  co_L : R;      (* getCharacteristicLength() *)
  co_t0 : R      (* m_startTime *)
}.

(** CouetteFlow2D.cpp:131-134: lambda, exp_expression and increment in pass [i]. *)
Definition couette_lambda (f : couette) (i : nat) : R := INR i * PI / co_L f.
Definition couette_exp (f : couette) (i : nat) (t : R) : R :=
  exp (- co_nu f * couette_lambda f i * couette_lambda f i * t).
Definition couette_increment (f : couette) (i : nat) (h t : R) : R :=
  (if Nat.eqb (i mod 2) 0 then 1 else -1) * 2 * co_U f / (couette_lambda f i * co_L f)
  * couette_exp f i t * sin (couette_lambda f i * h).

(** CouetteFlow2D.cpp:129-141: the loop, with the passes [i], [i+1], ..., [i+left-1] still to do. *)
Fixpoint couette_loop (f : couette) (h t : R) (left i : nat) (sum : R) : R :=
  match left with
  | O => sum
  | S left' =>
      let sum' := sum + couette_increment f i h t in
      if Rlt_dec (couette_exp f i t) (/ 10 ^ 20) then sum'
      else couette_loop f h t left' (S i) sum'
  end.

(** The number of passes, 10000. *)
Definition couette_terms : nat := (100 * 100)%nat.

(** CouetteFlow2D.cpp:104-149, CouetteFlow3D.cpp:107-152: component 0 at height [h] (x(1) in two, x(2) in three
    dimensions) after [set_time(time)].  The warning of lines 142-147 is left out. *)
Definition couette_profile (f : couette) (h time : R) : R :=
  let t := time + co_t0 f in
  if Rlt_dec t (1 / 100000) then
    if Rlt_dec h (co_L f - 1 / 100000) then 0 else co_U f
  else couette_loop f h t couette_terms 1 (co_U f * h / co_L f).

(** CouetteFlow2D.cpp:100-151. *)
Definition couette2_velocity (f : couette) (component : nat) (x y time : R) : outcome R :=
  match component with
  | O => Ok (couette_profile f y time)
  | S O => Ok 0
  | _ => Throw
  end.

(** CouetteFlow3D.cpp:104-156. *)
Definition couette3_velocity (f : couette) (component : nat) (x y z time : R) : outcome R :=
  match component with
  | O => Ok (couette_profile f z time)
  | S O | S (S O) => Ok 0
  | _ => Throw
  end.

(** The height of the moving plate: CouetteFlow2D.cpp:59-74 (hyper_cube(0, L), boundary 3 is the side y = L);
    CouetteFlow3D.cpp:53-80 (the box [0,L] x [0,1] x [0,1], boundary 5 is the side z = 1). *)
Definition couette2_plate (f : couette) : R := co_L f.
Definition couette3_plate (f : couette) : R := 1.

(** The velocities given to the walls: CouetteFlow2D.cpp:76-98, CouetteFlow3D.cpp:82-102. *)
Definition couette_wall_bottom (f : couette) (component : nat) : R := 0.
Definition couette_wall_top (f : couette) (component : nat) : R :=
  match component with O => co_U f | _ => 0 end.

(** ** Poiseuille flow *)

(** PoiseuilleFlow2D.cpp:22-42, PoiseuilleFlow3D.cpp:24-46: the constructors.  Without periodicity
    makeBoundaries ends the program (line 91 and line 110). *)
Record poiseuille := {
  po_nu : R;
  po_height : R;      (* getCharacteristicLength() *)
  po_uBulk : R;
  po_uMax : R;
  po_force : R        (* F[0]; the other components are zero *)
}.
Definition poiseuille_construct (viscosity u_bulk height : R) (is_periodic : bool) : outcome poiseuille :=
  if is_periodic then
    let uMax := 3 / 2 * u_bulk in
    Ok {| po_nu := viscosity; po_height := height; po_uBulk := u_bulk; po_uMax := uMax;
          po_force := 8 * uMax * viscosity / (height * height) |}
  else Throw.

(** PoiseuilleFlow2D.cpp:113-123 ([dim] = 2), PoiseuilleFlow3D.cpp:131-141 ([dim] = 3). *)
Definition poiseuille_velocity (dim : nat) (f : poiseuille) (component : nat) (h time : R) : outcome R :=
  if Nat.ltb component dim then Ok 0 else Throw.

(** ** BackwardFacingStep2D *)

(** BackwardFacingStep2D.h:36-47, BackwardFacingStep2D.cpp:139-148. *)
Definition bfs_inflow (h_step h_domain u_av : R) (component : nat) (x y : R) : outcome R :=
  match component with
  | O => Ok (- u_av * (3 / 2) * 4 * (y - h_domain) * (y - h_step) / (h_domain - h_step) ^ 2)
  | S O => Ok 0
  | _ => Throw
  end.

(** BackwardFacingStep2D.cpp:150-161 (FASTER_CONVERGENCE_INIT is not defined; that branch does not compile). *)
Definition bfs_initial (component : nat) (x y : R) : outcome R :=
  if Nat.ltb component 2 then Ok 0 else Throw.

(** ProblemDescription.h: the functions for the initial density and velocity, by default the
    constants 1 and 0. *)
Record initial_fields := {
  if_rho : nat -> R -> R -> outcome R;
  if_u : nat -> R -> R -> outcome R
}.

(** BackwardFacingStep2D.cpp:28: what the body of the constructor stores
    ([setInitialRho] is called with the velocity function). *)
Definition bfs_fields : initial_fields :=
  {| if_rho := bfs_initial; if_u := fun _ _ _ => Ok 0 |}.

(** The members of BackwardFacingStep2D while its constructor runs (BackwardFacingStep2D.h:69-74): [None] is a
    member that has not been initialised yet. *)
Record bfs_members := {
  bm_LDomain : option R; bm_LStep : option R; bm_HDomain : option R; bm_HStep : option R
}.
Definition bm_none : bfs_members := {| bm_LDomain := None; bm_LStep := None; bm_HDomain := None; bm_HStep := None |}.

(** Reading a member. *)
Definition read_member (m : option R) : outcome R := match m with Some v => Ok v | None => UB end.

(** BackwardFacingStep2D.cpp:35-68: makeGrid, up to the rectangles (corner points) it generates. *)
Definition bfs_makeGrid (m : bfs_members) : outcome (list (R * R * R * R)) :=
  obind (read_member (bm_HStep m)) (fun hs =>
  obind (read_member (bm_LStep m)) (fun ls =>
  obind (read_member (bm_HDomain m)) (fun hd =>
  obind (read_member (bm_LDomain m)) (fun ld =>
  Ok [(0, hs, ls, hd); (ls, hs, ld, hd); (ls, 0, ld, hs)])))).

(** BackwardFacingStep2D.cpp:21-30: the base class is initialised with makeGrid() before the members
    are. *)
Definition bfs_construct (L_domain L_step h_domain h_step : R) : outcome (list (R * R * R * R) * bfs_members) :=
  obind (bfs_makeGrid bm_none) (fun rects =>
  Ok (rects, {| bm_LDomain := Some L_domain; bm_LStep := Some L_step;
                bm_HDomain := Some h_domain; bm_HStep := Some h_step |})).

(** ** ShearLayer2D, Droplet2D *)

(** ShearLayer2D.cpp:39-51. *)
Definition shear_velocity (u0 kappa perturbation : R) (component : nat) (x y : R) : outcome R :=
  match component with
  | O => if Rle_dec y (1 / 2) then Ok (u0 * tanh (kappa * (y - 1 / 4))) else Ok (u0 * tanh (kappa * (3 / 4 - y)))
  | S O => Ok (perturbation * u0 * sin (8 * (PI / 4) * (x + 1 / 4)))
  | _ => Throw
  end.

(** Droplet2D.cpp:95-123. *)
Definition droplet_density (length height rho_l rho_g W R0 : R) (component : nat) (x y : R) : outcome R :=
  match component with
  | O =>
      let dist := sqrt ((x - 1 / 2 * length) ^ 2 + (y - 1 / 2 * height) ^ 2) in
      let arg := (dist - R0) / W in
      Ok (1 / 2 * (rho_l + rho_g) - 1 / 2 * (rho_l - rho_g) * sinh arg / cosh arg)
  | _ => Throw
  end.

(** ** Transformations of the grid *)

(** ShearLayer2D.h:71-84, Riemann2D.h:95-108. *)
Definition shear_trans (y trafo : R) : R := 1 / (4 * PI) * (trafo * sin (4 * PI * y) + 4 * PI * y).
Definition shear_grid (tX tY : R) (p : R * R) : R * R := (shear_trans (fst p) tX, shear_trans (snd p) tY).

(** CouetteFlow2D.h:86-93, applied if m_isUnstructured (CouetteFlow2D.cpp:46-57). *)
Definition couette2_trans (y : R) : R := tanh (4 * (y - 1 / 2)) / tanh 2 / 2 + 1 / 2.
Definition couette2_grid (unstructured : bool) (p : R * R) : R * R :=
  if unstructured then (fst p, couette2_trans (snd p)) else p.

(** CouetteFlow3D.h:90-101: [Point<3>(x, y)]; the constructor with two coordinates is for two
    dimensions only (deal.II asserts dim == 2). *)
Definition couette3_grid (unstructured : bool) (p : R * R * R) : outcome (R * R * R) :=
  if unstructured then Throw else Ok p.

(** SinusoidalShear2D.h:80-108.  [None]: the assertion of line 103 fails. *)
Definition sinus_refineY (y : R) : R := 1 / 2 + 1 / 2 * tanh ((y - 1 / 2) * PI) / tanh (1 / 2 * PI).
Definition sinus_refineX (ampl x : R) : R := x - 19 / 1000 * ampl / (49 / 100) * sin (4 * PI * x).
Definition sinus_upper (height ampl x : R) : R := height + ampl * sin (2 * PI * x).
Definition sinus_grid (height ampl wavelength : R) (p : R * R) : outcome (R * R) :=
  if Rlt_dec ampl height then
    let x := sinus_refineX ampl (fst p) in
    Ok (wavelength * x, sinus_refineY (snd p) * sinus_upper height ampl x)
  else Throw.

(** LubricationSine.h:85-128. *)
Definition lubri_refineY (height y : R) : R :=
  height * (1 / 2 + 1 / 2 * tanh ((y / height - 1 / 2) * PI) / tanh (1 / 2 * PI)).
Definition lubri_refineX (height ampl wavelength x : R) : R :=
  x + wavelength * ampl / height / (2 * PI) * sin (2 * PI * x / wavelength).
Definition lubri_upper (height ampl wavelength roughness : R) (ratio : nat) (x : R) : R :=
  height + ampl * cos (2 * PI * x / wavelength) + roughness * cos (2 * PI * x / (wavelength / INR ratio)).
Definition lubri_grid (height ampl wavelength roughness : R) (ratio : nat) (p : R * R) : outcome (R * R) :=
  if Rlt_dec ampl height then
    let x := lubri_refineX height ampl wavelength (fst p) in
    Ok (x, lubri_refineY height (snd p) / height * lubri_upper height ampl wavelength roughness ratio x)
  else Throw.

(** ** AdvectionBenchmark *)

(** AdvectionBenchmark.cpp:98-109: the two while loops that bring the point back to the unit interval;
    [None] = not finished after [fuel] passes. *)
Fixpoint up_loop (fuel : nat) (x : R) : option R :=
  if Rlt_dec x 0 then match fuel with O => None | S k => up_loop k (x + 1) end else Some x.
Fixpoint down_loop (fuel : nat) (x : R) : option R :=
  if Rlt_dec 1 x then match fuel with O => None | S k => down_loop k (x - 1) end else Some x.

(** AdvectionBenchmark.cpp:110-118: the initial profile on the unit interval; [(h > 0) - (h < 0)]. *)
Definition sign (h : R) : R := (if Rlt_dec 0 h then 1 else 0) - (if Rlt_dec h 0 then 1 else 0).
Definition adv_profile (is_smooth : bool) (x : R) : R :=
  let h := sin (8 * (PI / 4) * x * 1) in
  if is_smooth then h else sign h * Rabs h ^ 2.

(** AdvectionBenchmark.cpp:91-119. *)
Definition adv_analytic (fuel : nat) (time x : R) (is_smooth : bool) : option R :=
  match up_loop fuel (x - time) with
  | Some x1 => match down_loop fuel x1 with Some x2 => Some (adv_profile is_smooth x2) | None => None end
  | None => None
  end.

(** AdvectionBenchmark.cpp:216-268: the time loop of oneTest.  [transport] is one step of the field: the
    product with the matrix of the semi-Lagrangian operator or the step of the time integrator;
    [TimeIntegrator::step] returns the time after the step (ModelIntegrator's integrators return t + dt).  With
    [output_to_std_dir] line 225 adds this to the time, otherwise line 262 assigns it.  The result is
    the field, the time and the number of steps; [None] = not finished after [fuel] passes. *)
Section Advection.
  Variable F : Type.
  Variables (semi_lagrangian output_to_std_dir : bool) (dt t_end : R) (transport : F -> F).
  Definition adv_time (t : R) : R :=
    if semi_lagrangian then t + dt
    else if output_to_std_dir then t + (t + dt) else t + dt.
  Fixpoint adv_loop (fuel : nat) (f : F) (t : R) (i : nat) : option (F * R * nat) :=
    if Rlt_dec t t_end then
      match fuel with O => None | S k => adv_loop k (transport f) (adv_time t) (S i) end
    else Some (f, t, i).
End Advection.
Arguments adv_loop {F}.
