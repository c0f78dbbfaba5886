(** What is expected of the comparison of the cavity with references. *)
From Verif Require Import Prelude.
Local Open Scope R_scope.

(** The processes together hold the field [f] at (x, y): those that own the point agree, at least one owns it. *)
Definition known_at (f : R -> R -> R) (all : list (R -> R -> option R)) (x y : R) : Prop :=
  (forall e v, In e all -> e x y = Some v -> v = f x y) /\ exists e, In e all /\ e x y = Some (f x y).

(** Root of the mean squared difference of two sequences. *)
Definition rms (n : nat) (a b : nat -> R) : R := sqrt (sumf n (fun i => Rsqr (a i - b i)) / INR n).

(** Tables hold values at [n] positions that agree up to [tol]. *)
Definition agree (n : nat) (tol : R) (a b : nat -> R) : Prop := forall i, (i < n)%nat -> Rabs (a i - b i) <= tol.
