(** Specification vocabulary: Gauss-Lobatto rules and conforming meshes of boxes. *)
From Verif Require Import Prelude ModelSEDG.
Local Open Scope R_scope.

(** The Gauss-Lobatto rule with n + 1 points on the unit interval: the ends are points, and polynomials of degree up to 2 n - 1
    are integrated exactly. *)
Record gauss_lobatto (n : nat) (x w : nat -> R) : Prop := {
  gl_first : x 0%nat = 0;
  gl_last : x n = 1;
  gl_increasing : forall i j, (i < j <= n)%nat -> x i < x j;
  gl_weights : forall i, (i <= n)%nat -> 0 < w i;
  gl_exact : forall k, (k <= 2 * n - 1)%nat -> sumf (S n) (fun s => w s * x s ^ k) = 1 / INR (S k) }.

(** Meshes of boxes: neighbours share a face of the same extensions, on opposite sides; every cell has its own numbers. *)
Record box_mesh {cell : Type} (n D : nat) (size : cell -> nat -> R) (dofs : cell -> nat -> nat) (behind : cell -> nat -> side cell) (cells : list cell) : Prop := {
  bm_size : forall c d, In c cells -> (d < D)%nat -> 0 < size c d;
  bm_nodup : NoDup cells;
  bm_own : forall c c' i j, In c cells -> In c' cells -> (i < S n ^ D)%nat -> (j < S n ^ D)%nat -> dofs c i = dofs c' j -> c = c' /\ i = j;
  bm_faces : forall c f c' f', In c cells -> (f < 2 * D)%nat -> behind c f = Beyond c' f' ->
    In c' cells /\ behind c' f' = Beyond c f /\ (f' / 2 = f / 2)%nat /\ Nat.even f' = negb (Nat.even f) /\
    forall d, (d < D)%nat -> d <> (f / 2)%nat -> size c' d = size c d }.
