(** What the filters get from deal.II: quadrature rules, Legendre polynomials. *)
From Verif Require Import Prelude ModelSemiLagrangian ModelElements SpecFilter.
Local Open Scope R_scope.

(** A rule with p + 1 different points and positive weights, exact for degrees up to 2 p - 1 (Gauss-Lobatto; Gauss as well). *)
Record line_rule (p : nat) (x w : nat -> R) : Prop := {
  lr_points : forall i j, (i < j <= p)%nat -> x i <> x j;
  lr_weights : forall i, (i <= p)%nat -> 0 < w i;
  lr_exact : forall k, (k <= 2 * p - 1)%nat -> sumf (S p) (fun s => w s * x s ^ k) = 1 / INR (S k) }.
(** The product rule in [dim] dimensions, first coordinate fastest. *)
Definition tensor_rule (dim p : nat) (x w : nat -> R) : quadrature :=
  mkQuad (Nat.pow (p + 1) dim) (fun q d => x (digit (p + 1) d q)) (fun q => prodf dim (fun d => w (digit (p + 1) d q))).
(** Polynomials of the degrees 0, ..., p, orthogonal to each other on the unit interval ([F] is an antiderivative). *)
Record orthogonal_basis (p : nat) (leg : nat -> R -> R) : Prop := {
  ob_degree : forall k, (k <= p)%nat -> exists a c, a <> 0 /\ forall t, leg k t = a * t ^ k + sumf k (fun j => c j * t ^ j);
  ob_orthogonal : forall j k, (j < k <= p)%nat -> exists F, (forall t, derivable_pt_lim F t (leg j t * leg k t)) /\ F 1 = F 0 }.
(** Square integral of a cell function. *)
Definition square_integral (q : quadrature) (u : (nat -> R) -> R) : R := integral q (fun x => u x * u x).
