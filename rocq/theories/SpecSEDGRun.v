(** The discontinuous Galerkin system as one matrix and one vector over [Q - 1] blocks of [N] rows. *)
From Verif Require Import Prelude ModelStencils ModelSemiLagrangian ModelSEDG SpecSEDG.
Local Open Scope R_scope.

Definition flat_entry (N r c : nat) (en : entry) : R :=
  let '(a', b, i', j, v) := en in if ((Nat.eqb (r / N) a' && Nat.eqb (r mod N) i') && (Nat.eqb (c / N) b && Nat.eqb (c mod N) j))%bool then v else 0.
Definition flat_matrix (N : nat) (s : system) (r c : nat) : R := total (fst s) (flat_entry N r c).
Definition flat_vector (N : nat) (s : system) (r : nat) : R := vector_value (snd s) (r / N) (r mod N).
(** Population [a] in a flat vector; direction 0 is not in it. *)
Definition populations (N : nat) (x : nat -> R) (a j : nat) : R := x ((a - 1) * N + j)%nat.
