(** Vocabulary for the turbulent channel: random numbers, wall friction, meshes. *)
From Coq Require Import Reals ZArith.
Local Open Scope R_scope.

(** The [n]-th number of the sequence of Lehmer (Park and Miller) started with [s]. *)
Definition lehmer (n : nat) (s : Z) : Z := ((16807 ^ Z.of_nat n * s) mod 2147483647)%Z.

(** [tau] is the total shear stress of a flow between walls at 0 and [height] in equilibrium with the force
    [force] per volume: it decreases at the rate of the force and the two walls rub alike. *)
Definition balanced (force height : R) (tau : R -> R) :=
  (forall y, 0 <= y <= height -> derivable_pt_lim tau y (- force)) /\ tau height = - tau 0.

(** The Reynolds number made of the friction velocity (root of stress by density, density 1), the half
    height and the viscosity. *)
Definition friction_reynolds (visc half stress : R) : R := sqrt stress * half / visc.

(** Forward differences of a function of a point of space, by direction. *)
Definition moved (h : R) (d : nat) (g : R -> R -> R -> R) (x y z : R) : R :=
  match d with 0%nat => g (x + h) y z | 1%nat => g x (y + h) z | _ => g x y (z + h) end.
Definition divergence_h (h : R) (u : nat -> R -> R -> R -> R) (x y z : R) : R :=
  (moved h 0 (u 0%nat) x y z - u 0%nat x y z) / h + (moved h 1 (u 1%nat) x y z - u 1%nat x y z) / h
  + (moved h 2 (u 2%nat) x y z - u 2%nat x y z) / h.

(** A value of the unit interval given by the Lehmer generator started from [seed], cut off below 1. *)
Definition uniform_value (seed : Z) (v : R) : Prop :=
  exists k, (1 <= k)%nat /\ v = Rmin (IZR (lehmer k (Z.max (- seed) 1)) / 2147483647) (1 - 12/100000000).
