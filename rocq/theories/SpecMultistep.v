(** Vocabulary for the multistep collision object. *)
From Verif Require Import Prelude ModelStencils SpecStencils ModelConfigNames ModelEquilibria ModelCollision SpecCollision
  ModelOldCollision SpecOldCollision ModelMultistep.
Local Open Scope R_scope.

(** Operations of a run: collide all nodes, or move the populations. *)
Inductive operation := Collide | Move (T : (nat -> nat -> R) -> (nat -> nat -> R)).

Fixpoint perform (m : multi) (nodes : list nat) (ops : list operation) (x : mstate) : outcome mstate :=
  match ops with
  | [] => Ok x
  | Collide :: rest => obind (multi_collideAll m false nodes x) (perform m nodes rest)
  | Move T :: rest => perform m nodes rest (multi_stream T x)
  end.

(** [k] collisions one after the other. *)
Fixpoint collide_times (m : multi) (nodes : list nat) (k : nat) (x : mstate) : outcome mstate :=
  match k with
  | O => Ok x
  | S k' => obind (multi_collideAll m false nodes x) (collide_times m nodes k')
  end.

Definition total (nodes : list nat) (g : nat -> R) : R := fold_right Rplus 0 (map g nodes).
Definition total_mass (st : stencil) (nodes : list nat) (f : nat -> nat -> R) : R := total nodes (fun n => mass st (f n)).
Definition total_momentum (st : stencil) (nodes : list nat) (f : nat -> nat -> R) (a : nat) : R :=
  total nodes (fun n => momentum st (f n) a).

(** An operator that keeps the total mass and momentum of the nodes. *)
Definition keeps_totals (st : stencil) (nodes : list nat) (T : (nat -> nat -> R) -> (nat -> nat -> R)) : Prop :=
  forall f, total_mass st nodes (T f) = total_mass st nodes f /\
            forall a, (a < st_D st)%nat -> total_momentum st nodes (T f) a = total_momentum st nodes f a.

Definition moves_keep_totals (st : stencil) (nodes : list nat) (ops : list operation) : Prop :=
  forall T, In (Move T) ops -> keeps_totals st nodes T.

(** Equilibrium with the density and velocity of the populations [f]:
    w_i rho (1 + e.u / cs2 + (e.u)^2 / (2 cs2^2) - u.u / (2 cs2)). *)
Definition equilibrium (st : stencil) (f : nat -> R) (i : nat) : R :=
  let u a := momentum st f a / mass st f in
  let eu := dot (st_D st) (st_e st i) u in
  st_w st i * mass st f * (1 + eu / st_cs2 st + eu * eu / (2 * st_cs2 st * st_cs2 st)
                           - dot (st_D st) u u / (2 * st_cs2 st)).

(** The third order Adams-Moulton method and the second order backward differentiation formula for
    y' = - (y - e) / lambda with step [dt]. *)
Definition adams_moulton (lambda dt e : R) (y : nat -> R) : Prop :=
  forall k, y (S (S k)) - y (S k)
            = - dt / lambda * (5/12 * (y (S (S k)) - e) + 8/12 * (y (S k) - e) - 1/12 * (y k - e)).
Definition bdf2 (lambda dt e : R) (y : nat -> R) : Prop :=
  forall k, 3/2 * y (S (S k)) - 2 * y (S k) + 1/2 * y k = - dt / lambda * (y (S (S k)) - e).

Definition multistep_method (c : multistep_scheme) : R -> R -> R -> (nat -> R) -> Prop :=
  match c with ADAMSMOULTON4 => adams_moulton | BDF2 => bdf2 end.

(** Weight of the new value in the right hand side: the stored populations are
    f = y + weight * dt / lambda * (y - e). *)
Definition implicit_weight (c : multistep_scheme) : R := match c with ADAMSMOULTON4 => 5/12 | BDF2 => 2/3 end.

(** Population [i] of node [n] comes arbitrarily close to [e] if one only collides. *)
Definition settles (m : multi) (nodes : list nat) (x : mstate) (n i : nat) (e : R) : Prop :=
  forall eps, 0 < eps -> exists N, forall k, (N <= k)%nat ->
    exists x', collide_times m nodes k x = Ok x' /\ Rabs (fl_f (ms_x x') n i - e) < eps.

(** It leaves every bound. *)
Definition blows_up (m : multi) (nodes : list nat) (x : mstate) (n i : nat) : Prop :=
  forall M, exists N, forall k, (N <= k)%nat -> exists x', collide_times m nodes k x = Ok x' /\ M < Rabs (fl_f (ms_x x') n i).

Fixpoint collisions (ops : list operation) : nat :=
  match ops with [] => O | Collide :: r => S (collisions r) | Move _ :: r => collisions r end.

(** The state a new object starts from. *)
Definition fresh (x : fields) : mstate := {| ms_x := x; ms_F := fun _ _ => 0; ms_FEq := fun _ _ => 0; ms_first := true |}.
