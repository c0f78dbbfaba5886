(** Fourier coefficients of a real field on a box of N0 x N1 x N2 points. *)
From Verif Require Import Prelude.
Local Open Scope R_scope.

Definition wave (N0 N1 N2 kx ky kz a b c : nat) : R :=
  2 * PI * (INR a * INR kx / INR N0 + INR b * INR ky / INR N1 + INR c * INR kz / INR N2).
Definition box_sum (N0 N1 N2 : nat) (g : nat -> nat -> nat -> R) : R := sumf N0 (fun a => sumf N1 (fun b => sumf N2 (fun c => g a b c))).

(** Real and imaginary part of sum f exp(- i wave). *)
Definition coefficient_re N0 N1 N2 (f : nat -> nat -> nat -> R) kx ky kz : R := box_sum N0 N1 N2 (fun a b c => f a b c * cos (wave N0 N1 N2 kx ky kz a b c)).
Definition coefficient_im N0 N1 N2 (f : nat -> nat -> nat -> R) kx ky kz : R := - box_sum N0 N1 N2 (fun a b c => f a b c * sin (wave N0 N1 N2 kx ky kz a b c)).

(** The field written point by point, last coordinate fastest. *)
Definition field_of (N1 N2 : nat) (input : list R) (a b c : nat) : R := nth ((a * N1 + b) * N2 + c)%nat input 0.

Definition label (l : nat * nat * nat * R * R) : nat * nat * nat := fst (fst l).

(** Sum of all waves with given coefficients at a point. *)
Definition back_transform N0 N1 N2 (re im : nat -> nat -> nat -> R) (a b c : nat) : R :=
  box_sum N0 N1 N2 (fun kx ky kz => re kx ky kz * cos (wave N0 N1 N2 kx ky kz a b c) - im kx ky kz * sin (wave N0 N1 N2 kx ky kz a b c)) / INR (N0 * N1 * N2).

(** Sizes beyond the dimension are one. *)
Definition usual_call (dim N1 N2 : nat) : Prop := dim = 3%nat \/ dim = 2%nat /\ N2 = 1%nat \/ dim = 1%nat /\ N1 = 1%nat /\ N2 = 1%nat.
