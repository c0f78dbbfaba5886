(** Flows around a cylinder and a sphere: initial states, blocks of the mesh and choice of velocity and viscosity.
    Reals for doubles; [assert] is checked (failed assertion = [Throw]). *)
From Verif Require Import Prelude.
Local Open Scope R_scope.

(** ** Cylinder *)

(** examples/step-9/Cylinder2D.cpp:112: inner radius of the hyper_shell, i.e. of the obstacle in the mesh. *)
Definition cylinder_radius : R := 1.

(** examples/step-9/Cylinder2D.cpp:112-115: cells around the obstacle: 4, refined three times.  Circle points of the mesh
    handed to the solver are this many; [refine] (Cylinder2D.h:36-45) adds points in between. *)
Definition cylinder_cells : nat := (4 * 2 ^ 3)%nat.

(** examples/step-9/Cylinder2D.cpp:252-277: Cylinder2D::InitialU::value. *)
Definition cylinder_u (U x y : R) (component : nat) : outcome R :=
  if Nat.ltb component 2 then
    let R := 1 / 2 in
    let r := sqrt (x * x + y * y) in
    if Rle_dec (97 / 100) r then
      let sin_phi := y / r in
      let cos_phi := x / r in
      let u_r := U * (1 - R * R / (r * r)) * cos_phi in
      let u_phi := - U * (1 + R * R / (r * r)) * sin_phi in
      if Nat.eqb component 0 then Ok (u_r * cos_phi - u_phi * sin_phi)
      else if Nat.eqb component 1 then Ok (u_r * sin_phi + u_phi * cos_phi)
      else Ok 0
    else Throw
  else Throw.

(** examples/step-9/Cylinder2D.cpp:285-301: Cylinder2D::InitialRho::value; [speed] is the characteristic velocity
    (Cylinder2D.h:32-34: the inlet velocity).  The unused velocities of lines 297-298 are left out. *)
Definition cylinder_rho (speed x y : R) : outcome R :=
  let U := speed * (1 / 2) in
  let R := 1 / 2 in
  let r := sqrt (x * x + y * y) in
  if Rle_dec (97 / 100) r then
    let sin_phi := y / r in
    let cos_phi := x / r in
    let cos_2phi := cos_phi * cos_phi - sin_phi * sin_phi in
    Ok (1 + 1 / 2 * U * U * (2 * R * R / (r * r) * cos_2phi - R * R * R * R / (r * r * r * r)))
  else Throw.

(** examples/step-9/step-9.cpp:52-70: velocity, viscosity and the Mach number printed. *)
Definition step9_gamma : R := 14 / 10.
Definition step9_T : R := 1.
Definition step9_scaling : R := 1.
Definition step9_velocity (Ma : R) (compressible : bool) : R :=
  let U := 1 / sqrt 3 * Ma in if compressible then U * sqrt (step9_gamma * step9_T) else U.
Definition step9_viscosity (Ma : R) (Re : Z) (compressible : bool) : R := step9_velocity Ma compressible / IZR Re.
Definition step9_printed (Ma : R) (compressible : bool) : R :=
  step9_velocity Ma compressible / (step9_scaling / sqrt 3) / sqrt (step9_gamma * step9_T).

(** ** Sphere *)

(** examples/step-sphere/Sphere.cpp:86-87: inner radius of the hyper_shell. *)
Definition sphere_radius : R := 1 / 2.

(** examples/step-sphere/Sphere.cpp:215-245: Sphere::InitialU::value; the values computed for r = 0 (division by zero in
    variables that are not used) do not matter. *)
Definition sphere_u (U x y z : R) (component : nat) : outcome R :=
  if Nat.ltb component 4 then (if Nat.eqb component 0 then Ok U else Ok 0) else Throw.

(** examples/step-sphere/Sphere.cpp:249-277: InitialT, InitialRho. *)
Definition sphere_T (x y z : R) : R := 1.
Definition sphere_rho (x y z : R) : R := 1.

(** examples/step-sphere/Sphere.cpp:102-104. *)
Definition sphere_inlet : Z := (-2)%Z.
Definition sphere_outlet : Z := 8%Z.
Definition sphere_width : Z := 5%Z.

(** examples/step-sphere/Sphere.cpp:115-116. *)
Definition sphere_lengths : list (Z * Z) := [(sphere_inlet, -1); (-1, 1); (1, 3); (3, sphere_outlet)]%Z.
Definition sphere_sizes : list (Z * Z) := [(- sphere_width, -1); (-1, 1); (1, sphere_width)]%Z.

(** A block: its intervals along the three axes. *)
Definition block := ((Z * Z) * (Z * Z) * (Z * Z))%type.

(** examples/step-sphere/Sphere.cpp:117-134: the rectangles merged with the shell; the block of the shell is skipped. *)
Definition skipped (i j k : Z * Z) : bool := (Z.eqb (fst i) (-1) && Z.eqb (fst j) (-1) && Z.eqb (fst k) (-1))%bool.
Definition sphere_blocks : list block :=
  flat_map (fun i => flat_map (fun j => flat_map (fun k => if skipped i j k then [] else [(i, j, k)]) sphere_sizes) sphere_sizes) sphere_lengths.

(** examples/step-sphere/step-sphere.cpp:50-70,85-87,98-107: the simulation the program runs: velocity, scaling of the
    stencil and viscosity; [None]: no solver is created. *)
Definition step_sphere_gamma : R := 14 / 10.
Definition step_sphere (Ma : R) (Re : Z) (compressible : bool) : option (R * R * R) :=
  let U := 1 in
  let scaling := if compressible then 1 / sqrt step_sphere_gamma else 1 in
  let scaling' := scaling * (sqrt 3 / Ma) in
  let viscosity := U / IZR Re in
  if negb compressible then None else Some (U, scaling', viscosity).

(** examples/step-sphere/step-sphere.cpp:38: default of the option compressible. *)
Definition step_sphere_default : bool := false.
