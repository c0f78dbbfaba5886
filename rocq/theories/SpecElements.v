(** Specification vocabulary for finite elements and mappings. *)
From Verif Require Import Prelude ModelSemiLagrangian.
Local Open Scope R_scope.

(** Polynomials of degree at most [n] in each of [D] coordinates: sums of [c k * x_0 ^ al k 0 * x_1 ^ al k 1 * ...]. *)
Definition polynomial (n D : nat) (F : point -> R) : Prop := exists K (c : nat -> R) (al : nat -> nat -> nat),
  (forall k d, (k < K)%nat -> (d < D)%nat -> (al k d <= n)%nat) /\
  forall u, F u = sumf K (fun k => c k * prodf D (fun d => u d ^ al k d)).
(** A rule of points: in the unit interval, in increasing order. *)
Definition ordered_points (n : nat) (x : nat -> R) : Prop :=
  (forall i, (i <= n)%nat -> 0 <= x i <= 1) /\ forall i j, (i < j <= n)%nat -> x i < x j.
(** What is used of the Gauss-Lobatto points: they are ordered and contain both ends. *)
Definition lobatto_points (lobatto : nat -> nat -> R) : Prop :=
  forall n, (1 <= n)%nat -> ordered_points n (lobatto (n + 1)%nat) /\ lobatto (n + 1)%nat 0%nat = 0 /\ lobatto (n + 1)%nat n = 1.
(** Every coordinate of the image depends on its own coordinate only. *)
Definition separable (D : nat) (T : point -> outcome point) : Prop := exists g : nat -> R -> R,
  forall p q, T p = Ok q -> forall i, (i < D)%nat -> q i = g i (p i).
