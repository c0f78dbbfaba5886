(** Shape functions of tensor product elements on equidistant (for these orders also Gauss-Lobatto) support points. *)
From Verif Require Import Prelude ModelSemiLagrangian.
Local Open Scope R_scope.

(** Order 1 in [d] dimensions (FE_Q(1) of deal.II): bit [i] of the number tells on which side in direction [i] the corner lies. *)
Fixpoint linear_shape (d j : nat) (u : point) : R :=
  match d with
  | O => 1
  | S k => linear_shape k (j mod 2 ^ k) u * (if Nat.eqb (j / 2 ^ k) 0 then 1 - u k else u k)
  end.

(** Order 2 on the unit interval with nodes 0, 1/2, 1, and in two dimensions (number = column + 3 * row). *)
Definition quadratic (j : nat) (x : R) : R :=
  match j with O => (2 * x - 1) * (x - 1) | 1%nat => 4 * x * (1 - x) | _ => x * (2 * x - 1) end.
Definition biquadratic (j : nat) (u : point) : R := quadratic (j mod 3) (u 0%nat) * quadratic (j / 3) (u 1%nat).
