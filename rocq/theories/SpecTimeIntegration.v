(** What a time integrator for df/dt = A f + b has to satisfy. *)
From Verif Require Import Prelude.
Local Open Scope R_scope.

(** The right-hand side of the system. *)
Definition rhs (n : nat) (A : nat -> nat -> R) (b x : nat -> R) (i : nat) : R :=
  sumf n (fun j => A i j * x j) + b i.

(** A state at rest. *)
Definition steady (n : nat) (A : nat -> nat -> R) (b x : nat -> R) : Prop :=
  forall i, (i < n)%nat -> rhs n A b x i = 0.

(** A linear functional (with weights [w]) that the right-hand side does not change, for
    instance the total mass. *)
Definition conserved (n : nat) (A : nat -> nat -> R) (b w : nat -> R) : Prop :=
  forall x, sumf n (fun i => w i * rhs n A b x i) = 0.

(** [D k t i] is the k-th time derivative, at time t, of component i of a solution. *)
Definition solution (n : nat) (A : nat -> nat -> R) (b : nat -> R) (D : nat -> R -> nat -> R) : Prop :=
  (forall k t i, (i < n)%nat -> derivable_pt_lim (fun s => D k s i) t (D (S k) t i)) /\
  (forall t i, (i < n)%nat -> D 1%nat t i = rhs n A b (D 0%nat t) i).

(** The derivatives at time 0 of the solution that starts at [f]:
    f, A f + b, A (A f + b), A (A (A f + b)), ... *)
Fixpoint derivative (n : nat) (A : nat -> nat -> R) (b f : nat -> R) (k : nat) : nat -> R :=
  match k with
  | O => f
  | S O => rhs n A b f
  | S k' => fun i => sumf n (fun j => A i j * derivative n A b f k' j)
  end.

(** The time step taken: the argument, or the stored one if the argument is zero. *)
Definition taken (stored dt h : R) : Prop := (dt = 0 /\ h = stored) \/ (dt <> 0 /\ h = dt).

(** VmultLimiter.h: the limited product lies between the smallest and largest source value
    that contributes to it. *)
Definition within_sources (n : nat) (A : nat -> nat -> R) (source : nat -> R) (i : nat) (x : R) : Prop :=
  (exists j, (j < n)%nat /\ A i j <> 0 /\ source j <= x) /\
  (exists j, (j < n)%nat /\ A i j <> 0 /\ x <= source j).

(** Euclidean norm, and a linear solver that meets a relative tolerance in that norm
    ([tol] = 0: an exact solver). *)
Definition norm2 (n : nat) (x : nat -> R) : R := sqrt (sumf n (fun i => x i * x i)).
Definition solves (n : nat) (tol : R)
    (solve : (nat -> nat -> R) -> (nat -> R) -> (nat -> R) -> outcome (nat -> R)) : Prop :=
  forall M x0 r x, solve M x0 r = Ok x ->
    norm2 n (fun i => sumf n (fun j => M i j * x j) - r i) <= tol * norm2 n r.

(** A solver that returns its start vector when that is a solution already. *)
Definition keeps_solutions (n : nat)
    (solve : (nat -> nat -> R) -> (nat -> R) -> (nat -> R) -> outcome (nat -> R)) : Prop :=
  forall M x0 r x, solve M x0 r = Ok x ->
    (forall i, (i < n)%nat -> sumf n (fun j => M i j * x0 j) = r i) -> forall i, (i < n)%nat -> x i = x0 i.

(** The theta scheme: by how much [f1] misses
    f1 - f0 = h ((1 - theta) A f0 + theta A f1 + b). *)
Definition theta_defect (n : nat) (A : nat -> nat -> R) (b : nat -> R) (theta h : R) (f0 f1 : nat -> R) (i : nat) : R :=
  f1 i - f0 i - h * ((1 - theta) * sumf n (fun j => A i j * f0 j) + theta * sumf n (fun j => A i j * f1 j) + b i).
(** The part of the theta scheme that is known before the step. *)
Definition theta_known (n : nat) (A : nat -> nat -> R) (b : nat -> R) (theta h : R) (f0 : nat -> R) (i : nat) : R :=
  f0 i + h * ((1 - theta) * sumf n (fun j => A i j * f0 j) + b i).
