(** Matrices by their entries. *)
From Verif Require Import Prelude.
Local Open Scope R_scope.

(** Entry [i] of a vector kept in parts: the parts one after the other. *)
Definition ventry (v : list (list R)) (i : nat) : R := nth i (concat v) 0.
Definition mentry (M : list (list (list R))) (i j : nat) : R := ventry (nth j M []) i.

(** Same parts of the same lengths. *)
Definition alike (u v : list (list R)) : Prop := map (@length R) u = map (@length R) v.

Definition times_vector (M : list (list (list R))) (x : list R) (i : nat) : R := sumf (length M) (fun j => mentry M i j * nth j x 0).
