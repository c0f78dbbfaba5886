(** Vocabulary for inviscid gas flows.  Temperatures are in units in which the pressure is rho T / 3
    and the square of the speed of sound gamma T / 3, as in the lattice Boltzmann models with cs^2 = 1/3. *)
From Coq Require Import Reals.
From Verif Require Import SpecBenchmarks.
Local Open Scope R_scope.

Definition gas_pressure (rho T : R) : R := rho * T / 3.
(** Energy per volume. *)
Definition gas_energy (gamma rho u v T : R) : R := gas_pressure rho T / (gamma - 1) + rho * (u * u + v * v) / 2.

(** The jump conditions of Rankine and Hugoniot for a shock of speed [s] between two states moving with
    the velocities [u1], [u2] normal to the shock, up to [eps]: mass, momentum and energy. *)
Definition shock_conditions (eps gamma s rho1 u1 T1 rho2 u2 T2 : R) : Prop :=
  Rabs (rho1 * u1 - rho2 * u2 - s * (rho1 - rho2)) <= eps /\
  Rabs (rho1 * u1 * u1 + gas_pressure rho1 T1 - (rho2 * u2 * u2 + gas_pressure rho2 T2) - s * (rho1 * u1 - rho2 * u2)) <= eps /\
  Rabs ((gas_energy gamma rho1 u1 0 T1 + gas_pressure rho1 T1) * u1 - (gas_energy gamma rho2 u2 0 T2 + gas_pressure rho2 T2) * u2
        - s * (gas_energy gamma rho1 u1 0 T1 - gas_energy gamma rho2 u2 0 T2)) <= eps.

(** The balance [q]_t + [fx]_x + [fy]_y = 0 of functions of x, y and the time. *)
Definition balance (q fx fy : R -> R -> R -> R) : Prop :=
  exists qt fxx fyy, d3 q qt /\ d1 fx fxx /\ d2 fy fyy /\ forall x y t, qt x y t + fxx x y t + fyy x y t = 0.

(** The Euler equations in the plane. *)
Definition euler (gamma : R) (rho u v T : R -> R -> R -> R) : Prop :=
  let p x y t := gas_pressure (rho x y t) (T x y t) in
  let E x y t := gas_energy gamma (rho x y t) (u x y t) (v x y t) (T x y t) in
  balance rho (fun x y t => rho x y t * u x y t) (fun x y t => rho x y t * v x y t) /\
  balance (fun x y t => rho x y t * u x y t) (fun x y t => rho x y t * u x y t * u x y t + p x y t) (fun x y t => rho x y t * u x y t * v x y t) /\
  balance (fun x y t => rho x y t * v x y t) (fun x y t => rho x y t * u x y t * v x y t) (fun x y t => rho x y t * v x y t * v x y t + p x y t) /\
  balance E (fun x y t => (E x y t + p x y t) * u x y t) (fun x y t => (E x y t + p x y t) * v x y t).

(** A circular flow with speed [w], density [rho] and temperature [T], functions of the distance from
    the centre, is in equilibrium at the distance [r]: the pressure gradient is the centripetal force. *)
Definition radial_equilibrium (rho w T : R -> R) (r : R) : Prop :=
  derivable_pt_lim (fun s => gas_pressure (rho s) (T s)) r (rho r * (w r * w r) / r).
