(** Whole runs of a time integrator for df/dt = A f + b: growth bounds, weighted norms. *)
From Verif Require Import Prelude.
Local Open Scope R_scope.

(** Row sums of the matrix are at most [L]. *)
Definition bounded_rows (n : nat) (A : nat -> nat -> R) (L : R) : Prop :=
  forall i, (i < n)%nat -> sumf n (fun j => Rabs (A i j)) <= L.
(** Weighted scalar product, square and norm. *)
Definition wdot (n : nat) (w x y : nat -> R) : R := sumf n (fun i => w i * x i * y i).
Definition wnorm (n : nat) (w x : nat -> R) : R := sqrt (wdot n w x x).
(** The system takes energy out of every state. *)
Definition dissipative (n : nat) (A : nat -> nat -> R) (w : nat -> R) : Prop :=
  forall x, wdot n w x (fun i => sumf n (fun j => A i j * x j)) <= 0.
