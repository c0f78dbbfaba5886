(** Relaxation rate of a viscosity on D2Q9. *)
From Verif Require Import Prelude.
Local Open Scope R_scope.

(** 1 / (nu / (dt cs^2) + 1/2) with cs^2 = s^2 / 3 for the scaling s. *)
Definition viscous_rate (s nu dt : R) : R := 1 / (nu / (dt * (s * s / 3)) + 1/2).
