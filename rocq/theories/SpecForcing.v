(** Vocabulary for averages over the planes of a channel. *)
From Coq Require Import Reals List.
From Verif Require Import BigSum ModelForcing.
Import ListNotations.
Local Open Scope R_scope.

(** Different coordinates differ by more than the tolerance 1e-6. *)
Definition separated_planes (vs : list visit) : Prop :=
  forall v w, In v vs -> In w vs -> vi_y v = vi_y w \/ 1/1000000 < Rabs (vi_y v - vi_y w).
(** The points of a plane and the mean of a quantity over them. *)
Definition plane (vs : list visit) (y : R) : list visit := filter (fun v => if Req_EM_T (vi_y v) y then true else false) vs.
Definition plane_mean (vs : list visit) (q : visit -> R) (y : R) : R := suml q (plane vs y) / INR (length (plane vs y)).
(** The trapezoidal rule. *)
Fixpoint trapezoidal (g : R -> R) (ys : list R) : R :=
  match ys with
  | y0 :: (y1 :: _) as r => (y1 - y0) * (g y0 + g y1) / 2 + trapezoidal g r
  | _ => 0
  end.
