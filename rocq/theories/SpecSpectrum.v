(** Eigenvalues of real matrices. *)
From Verif Require Import Prelude.
Local Open Scope R_scope.

(** z = a + i b is an eigenvalue: M (x + i y) = (a + i b) (x + i y) for some vector x + i y that is not zero. *)
Definition eigenvalue (n : nat) (M : nat -> nat -> R) (z : R * R) : Prop :=
  exists x y : nat -> R, (exists i, (i < n)%nat /\ (x i <> 0 \/ y i <> 0)) /\
    forall i, (i < n)%nat -> sumf n (fun j => M i j * x j) = fst z * x i - snd z * y i /\ sumf n (fun j => M i j * y j) = snd z * x i + fst z * y i.

Definition scaled (dt : R) (M : nat -> nat -> R) : nat -> nat -> R := fun i j => dt * M i j.

(** Entries differ by at most d. *)
Definition within (n : nat) (d : R) (A B : nat -> nat -> R) : Prop := forall i j, (i < n)%nat -> (j < n)%nat -> Rabs (B i j - A i j) <= d.
