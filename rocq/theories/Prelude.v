(** Common vocabulary of the model: outcomes of C++ calls, finite sums. *)
From Coq Require Export Reals List Arith Lia Lra Bool ZArith.
Export ListNotations.
Open Scope R_scope.

(** Outcome of a C++ call.  [Throw] is a C++ exception or [natrium_errorexit],
    [UB] is undefined behaviour (e.g. running off the end of a non-void
    function, reading an uninitialised variable). *)
Inductive outcome (A : Type) : Type :=
| Ok (a : A)
| Throw
| UB.
Arguments Ok {A} a.
Arguments Throw {A}.
Arguments UB {A}.

Definition obind {A B} (x : outcome A) (f : A -> outcome B) : outcome B :=
  match x with Ok a => f a | Throw => Throw | UB => UB end.

(** [sumf n f]: the C++ loop [acc = 0; for (i = 0; i < n; i++) acc += f(i);]. *)
Fixpoint sumf (n : nat) (f : nat -> R) : R :=
  match n with
  | O => 0
  | S k => sumf k f + f k
  end.

(** Kronecker delta. *)
Definition delta (a b : nat) : R := if Nat.eqb a b then 1 else 0.

(** Dot product of two [D]-vectors. *)
Definition dot (D : nat) (x y : nat -> R) : R := sumf D (fun a => x a * y a).
