(** Grid of the flow between a moving bottom and a wavy wall.  Reals for doubles (4 atan 1 = PI). *)
From Verif Require Import Prelude.
Local Open Scope R_scope.

(** examples/step-6/ComplexWall1.h:90-95: refineBoundaryY. *)
Definition wall_refineY (y : R) : R := 1 * (1 / 2 + 1 / 2 * tanh ((y / 1 - 1 / 2) * PI) / tanh (1 / 2 * PI)).

(** examples/step-6/ComplexWall1.h:96-102: refineBoundaryX. *)
Definition wall_refineX (x : R) : R := x.

(** examples/step-6/ComplexWall1.h:104: height of the upper wall. *)
Definition wall_upper (L x : R) : R :=
  1 + 3 / 10 * cos (2 * PI * x / (L * 1)) + 1 / 10 * (cos (2 * PI * x / (L / 6))) ^ 3
    + 4 / 10 * cos (1 + 2 * PI * x / (L / 2)) + 1 / 10 * cos (12 / 100 + 2 * PI * x / (L / 5)).

(** examples/step-6/ComplexWall1.h:103-110: trans and operator(). *)
Definition wall_grid (L : R) (p : R * R) : R * R :=
  (wall_refineX (fst p), wall_refineY (snd p) * wall_upper L (wall_refineX (fst p))).
