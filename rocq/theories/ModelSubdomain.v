(** Enstrophy of a quarter of the shear layer.  Reals for doubles. *)
From Verif Require Import Prelude.
Local Open Scope R_scope.

(** A cell: owned by the process, centre, unknowns of its shape functions, gradients of shape function i at quadrature
    point q and JxW. *)
Record ecell := { e_owned : bool; e_x : R; e_y : R; e_dofs : list nat; e_grad : nat -> nat -> R * R; e_jxw : nat -> R }.

(** Reading with a quadrature point: [None] is the variable that is never set. *)
Definition at_point {A} (f : nat -> A) (q_point : option nat) : outcome A := match q_point with Some q => Ok (f q) | None => UB end.

(** examples/step-shearLayer2D/EnstrophySubdomain.h:67-76: vorticity at one point. *)
Fixpoint vorticity_loop (c : ecell) (ux uy : nat -> R) (q_point : option nat) (i : nat) (ds : list nat) (v : R) : outcome R :=
  match ds with
  | [] => Ok v
  | k :: l => obind (at_point (e_grad c i) q_point) (fun g => vorticity_loop c ux uy q_point (S i) l (v + (uy k * fst g - ux k * snd g)))
  end.

(** EnstrophySubdomain.h:66-78: loop over the quadrature points; the loop counts [q], the body uses [q_point]. *)
Fixpoint points_loop (c : ecell) (ux uy : nat -> R) (q_point : option nat) (n_q : nat) (r : R) : outcome R :=
  match n_q with
  | 0%nat => Ok r
  | S n => obind (vorticity_loop c ux uy q_point 0 (e_dofs c) 0) (fun v =>
           obind (at_point (e_jxw c) q_point) (fun w => points_loop c ux uy q_point n (r + v * v * w)))
  end.

(** EnstrophySubdomain.h:47-80: loop over the cells of one process, lower right quarter. *)
Definition in_quarter (c : ecell) : bool := (e_owned c && (if Rlt_dec (e_x c) (1 / 2) then false else true) && (if Rlt_dec (1 / 2) (e_y c) then false else true))%bool.
Fixpoint enstrophy_loop (ux uy : nat -> R) (q_point : option nat) (n_q : nat) (cells : list ecell) (r : R) : outcome R :=
  match cells with
  | [] => Ok r
  | c :: l => if in_quarter c then obind (points_loop c ux uy q_point n_q r) (fun r' => enstrophy_loop ux uy q_point n_q l r') else enstrophy_loop ux uy q_point n_q l r
  end.

(** EnstrophySubdomain.h:23-86: calculate on one process; q_point (line 43) is declared and never set. *)
Definition subdomain_calculate (ux uy : nat -> R) (n_q : nat) (cells : list ecell) : outcome R := enstrophy_loop ux uy None n_q cells 0.
