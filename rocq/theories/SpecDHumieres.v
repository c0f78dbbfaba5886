From Verif Require Import Prelude ModelStencils.
Open Scope R_scope.

(** The moments of d'Humieres et al. (Phil. Trans. R. Soc. A 360, 2002) on D3Q19 that are neither
    conserved nor stresses, as polynomials of the particle velocity: the energy square, the
    energy fluxes, the two fourth-order stresses and the three third-order moments; and the
    relaxation rates given there. *)
Definition dhumieres_polynomial (k : nat) (x y z : R) : R :=
  let n := x * x + y * y + z * z in
  nth k [(21 * n * n - 53 * n + 24) / 2; (5 * n - 9) * x; (5 * n - 9) * y; (5 * n - 9) * z;
         (3 * n - 5) * (3 * x * x - n); (3 * n - 5) * (y * y - z * z);
         (y * y - z * z) * x; (z * z - x * x) * y; (x * x - y * y) * z] 0.
Definition dhumieres_moment (k : nat) (f : nat -> R) : R :=
  sumf 19 (fun i => dhumieres_polynomial k (st_e (D3Q19 1) i 0) (st_e (D3Q19 1) i 1) (st_e (D3Q19 1) i 2) * f i).
Definition dhumieres_rate (k : nat) : R :=
  nth k [14/10; 12/10; 12/10; 12/10; 14/10; 14/10; 198/100; 198/100; 198/100] 0.
Definition dhumieres_energy_rate : R := 119/100.
