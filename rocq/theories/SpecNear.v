(** Specification vocabulary for the stencils whose data are decimal literals: their moments agree with those
    of the normal distribution up to a tolerance only, and so do the moments of the equilibria. *)
From Verif Require Import Prelude ModelStencils SpecStencils.
Local Open Scope R_scope.

(** Order of isotropy of the stencils for compressible flow ... *)
Definition high_order (t : StencilType) : nat :=
  match t with
  | Stencil_D2Q25H | Stencil_D2Q19H | Stencil_D2Q19V => 9
  | Stencil_D3V27 | Stencil_D3Q45 | Stencil_D3Q77 => 7
  | _ => moment_order t
  end.

(** ... and how accurately it holds. *)
Definition high_tol (t : StencilType) : R :=
  match t with
  | Stencil_D2Q19H | Stencil_D2Q19V => 1 / 10^13
  | Stencil_D3V27 => 1 / 10^14
  | Stencil_D3Q45 => 3 / 10^14
  | Stencil_D3Q77 => 2 / 10^13
  | _ => moment_tol t
  end.

(** Sum of the absolute velocity components, relative to the speed of sound. *)
Definition mach (st : stencil) (v : nat -> R) : R := sumf (st_D st) (fun a => Rabs (v a)) / Rabs (st_cs st).

(** Size of the coefficients of the fourth-order expansion in velocity and temperature deviation. *)
Definition expansion_size (st : stencil) (v : nat -> R) (T : R) : R :=
  (1 + mach st v + INR (st_D st) * Rabs (T - 1)) ^ 4.

(** Third central moments. *)
Definition central3 (st : stencil) (v h : nat -> R) (a b c : nat) : R :=
  sumf (st_Q st) (fun i => (st_e st i a - v a) * (st_e st i b - v b) * (st_e st i c - v c) * h i).
