(** Initial states of the compressible example problems: shock-vortex interaction, shock tube,
    two-dimensional Riemann problem, and the analytic solution of the density wave. *)
From Verif Require Import Prelude.
Local Open Scope R_scope.

(** ** src/examples/step-12/ShockVortexInteraction *)

(** ShockVortexInteraction.h:96-101, src/examples/step-10/SodShockTube.h:94-99 (calcOffsets). *)
Definition calcOffsets (left right : R) : R * R := (2 * left / (right - left) + 1, right / 2 - left / 2).

(** ShockVortexInteraction.cpp:50-55, 92-96, 110-113; SodShockTube.cpp:49-54, 61-66: the smoothed step. *)
Definition ramp (steepness offset left right x : R) : R :=
  let (first, second) := calcOffsets left right in (tanh (steepness * (x - offset)) + first) * second.

(** ShockVortexInteraction.h:128-136. *)
Definition svi_shockPosition : R := 30.
Definition svi_steepness : R := 1000000.
Definition svi_densityLeft : R := 134161490 / 100000000.
Definition svi_densityRight : R := 1.
Definition svi_machLeft : R := 84217047 / 100000000.
Definition svi_machRight : R := 12 / 10.
Definition svi_temperatureLeft : R := 112799382716 / 100000000000.
Definition svi_temperatureRight : R := 1.
Definition svi_vortexOffset : R := 2.

(** ShockVortexInteraction.cpp:45-46. *)
Definition svi_velocityLeft : R := - svi_machLeft / sqrt 3 * sqrt (14 / 10 * svi_temperatureLeft).
Definition svi_velocityRight : R := - svi_machRight / sqrt 3 * sqrt (14 / 10 * svi_temperatureRight).

(** ShockVortexInteraction.cpp:62-64, 89-91, 116-118: position relative to the centre of the vortex. *)
Definition x_rel (x : R) : R := x - (svi_shockPosition + svi_vortexOffset).
Definition y_rel (y : R) : R := y - 12.
Definition radius (x y : R) : R := sqrt (x_rel x * x_rel x + y_rel y * y_rel y).

(** ShockVortexInteraction.cpp:100, 121: the factor of the temperature in the vortex, as a function of
    the Mach number of the vortex and the distance. *)
Definition vortex_factor (Ma_v r : R) : R := 1 - (14 / 10 - 1) / 2 * Ma_v * Ma_v * exp (1 - r * r).

(** ShockVortexInteraction.cpp:119-122: temperature, given the value without vortex. *)
Definition vortex_temperature (Ma_v base r : R) : R := if Rle_dec r 5 then base * vortex_factor Ma_v r else base.

(** ShockVortexInteraction.cpp:99-101: density.  [pow] of a negative number is not a number. *)
Definition vortex_density (Ma_v base r : R) : outcome R :=
  if Rle_dec r 5 then
    if Rlt_dec (vortex_factor Ma_v r) 0 then UB else
    if Req_EM_T (vortex_factor Ma_v r) 0 then Ok 0 else Ok (base * Rpower (vortex_factor Ma_v r) (1 / (14 / 10 - 1)))
  else Ok base.

(** ShockVortexInteraction.cpp:70: the speed of the vortex, before the factor r exp((1 - r^2)/2). *)
Definition vortex_speed (Ma_v T_local : R) : R := Ma_v / sqrt 3 * sqrt (14 / 10 * T_local).

(** ShockVortexInteraction.cpp:108-126. *)
Definition svi_temperature (Ma_v x y : R) : R :=
  vortex_temperature Ma_v (ramp svi_steepness svi_shockPosition svi_temperatureLeft svi_temperatureRight x) (radius x y).

(** ShockVortexInteraction.cpp:86-103. *)
Definition svi_density (Ma_v x y : R) : outcome R :=
  vortex_density Ma_v (ramp svi_steepness svi_shockPosition svi_densityLeft svi_densityRight x) (radius x y).

(** ShockVortexInteraction.cpp:41-83.  The division by r in the centre of the vortex and the root of a
    negative temperature give no numbers. *)
Definition svi_velocity (Ma_v x y : R) (component : nat) : outcome R :=
  let base := match component with
              | O => ramp svi_steepness svi_shockPosition svi_velocityLeft svi_velocityRight x
              | _ => 0
              end in
  let r := radius x y in
  if Rle_dec r 5 then
    if Req_EM_T r 0 then UB else
    let T_local := svi_temperature Ma_v x y in
    if Rlt_dec T_local 0 then UB else
    let u_v := vortex_speed Ma_v T_local in
    match component with
    | O => Ok (base - r * u_v * (y_rel y / r) * exp ((1 - r * r) / 2))
    | S O => Ok (base + r * u_v * (x_rel x / r) * exp ((1 - r * r) / 2))
    | _ => Ok base
    end
  else Ok base.

(** ** src/examples/step-10/SodShockTube *)

(** SodShockTube.cpp:47-57. *)
Definition sod_density (length x : R) : R := ramp 10000 (length / 2) 8 1 x.
(** SodShockTube.cpp:59-71. *)
Definition sod_temperature (length x : R) : R := ramp 10000 (length / 2) (125 / 100) 1 x.

(** ** benchmarks/Riemann2D *)

(** benchmarks/Riemann2D.cpp:41-64. *)
Definition riemann_velocity (x y : R) (component : nat) : outcome R :=
  match component with
  | O => if Rle_dec x 1 then if Rlt_dec 1 y then Ok (42008 / 100000) else Ok 0 else Ok 0
  | S O => if Rlt_dec 1 x then if Rle_dec y 1 then Ok (42008 / 100000) else Ok 0 else Ok 0
  | _ => Throw
  end.

(** benchmarks/Riemann2D.cpp:66-86; one of the four conditions holds for all numbers. *)
Definition riemann_density (x y : R) : R :=
  if Rle_dec x 1 then (if Rle_dec y 1 then 8 / 10 else 1)
  else (if Rle_dec y 1 then 1 else 5313 / 10000).

(** benchmarks/Riemann2D.cpp:88-106. *)
Definition riemann_temperature (x y : R) : R :=
  if Rle_dec x 1 then (if Rle_dec y 1 then 125 / 100 else 1)
  else (if Rle_dec y 1 then 1 else 7532956685 / 10000000000).

(** ** src/examples/step-13/SmoothDensityPropagation *)

(** SmoothDensityPropagation.cpp:55-65, component 0; the last argument is the time. *)
Definition sdp_density (L U x y t : R) : R :=
  1 + 2 / 10 * (sin (2 * PI * x / L - 2 * PI * U * t) * sin (y * (2 * PI) / L)).
(** SmoothDensityPropagation.cpp:45-53. *)
Definition sdp_velocity (U : R) (component : nat) (x y t : R) : R := match component with O => U | _ => 0 end.
(** SmoothDensityPropagation.cpp:39-43, component 0. *)
Definition sdp_temperature (L U x y t : R) : R := 1 / sdp_density L U x y t.
(** SmoothDensityPropagation.h:63-64: the default of the parameter L. *)
Definition sdp_default_L : R := 2 * PI.
