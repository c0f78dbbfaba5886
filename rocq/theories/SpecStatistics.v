(** Vocabulary for the statistics: finite element functions, their integrals, means over the domain. *)
From Coq Require Import NArith Permutation.
From Verif Require Import Prelude BigSum ModelErrors ModelStatistics.
Local Open Scope R_scope.

(** The finite element function with the nodal values [v] at the [q]-th quadrature point of a cell, and its [k]-th derivative. *)
Definition at_point (n : nat) (v : field) (c : fe_cell) (q : nat) : R := sumf n (fun i => v (fc_dof c i) * fc_shape c i q).
Definition slope (n : nat) (v : field) (c : fe_cell) (q k : nat) : R := sumf n (fun i => v (fc_dof c i) * fc_grad c i q k).

(** Integral over the domain made of [cells], by the quadrature rule of the cells. *)
Definition integral (nq : nat) (cells : list fe_cell) (g : fe_cell -> nat -> R) : R :=
  suml (fun c => sumf nq (fun q => g c q * fc_JxW c q)) cells.
Definition volume (nq : nat) (cells : list fe_cell) : R := integral nq cells (fun _ _ => 1).
Definition domain_mean (nq : nat) (cells : list fe_cell) (g : fe_cell -> nat -> R) : R := integral nq cells g / volume nq cells.

(** The shape functions sum up to one. *)
Definition partition_of_unity (n nq : nat) (cells : list fe_cell) : Prop :=
  forall c q, In c cells -> (q < nq)%nat -> sumf n (fun i => fc_shape c i q) = 1.

(** The quadrature points are the support points of the element. *)
Definition collocated (n nq : nat) (cells : list fe_cell) : Prop :=
  n = nq /\ forall c i q, In c cells -> (i < n)%nat -> (q < nq)%nat -> fc_shape c i q = delta i q.

Definition positive_weights (nq : nat) (cells : list fe_cell) : Prop :=
  forall c q, In c cells -> (q < nq)%nat -> 0 < fc_JxW c q.

(** Curl of the velocity, square of its length. *)
Definition curl_sq (dim n : nat) (u : nat -> field) (c : fe_cell) (q : nat) : R :=
  let d i k := slope n (u i) c q k in
  if Nat.eqb dim 2 then (d 1%nat 0%nat - d 0%nat 1%nat) ^ 2
  else (d 2%nat 1%nat - d 1%nat 2%nat) ^ 2 + (d 0%nat 2%nat - d 2%nat 0%nat) ^ 2 + (d 1%nat 0%nat - d 0%nat 1%nat) ^ 2.

(** Divergence. *)
Definition div (dim n : nat) (u : nat -> field) (c : fe_cell) (q : nat) : R := sumf dim (fun i => slope n (u i) c q i).

(** Square of the velocity. *)
Definition speed_sq (dim n : nat) (u : nat -> field) (c : fe_cell) (q : nat) : R := sumf dim (fun i => at_point n (u i) c q ^ 2).

(** Arithmetic mean of numbers attached to the elements of a list. *)
Definition mean_of {A} (l : list A) (g : A -> R) : R := suml g l / INR (length l).

(** The value of an observable of the global statistics. *)
Definition observed (n : nat) (rho : field) (u : nat -> field) (o : observable) (c : fe_cell) (q : nat) : R :=
  match o with
  | ORho => at_point n rho c q
  | ODRho k => slope n rho c q k
  | OU i => at_point n (u i) c q
  | ODU i k => slope n (u i) c q k
  end.

(** What the legend of the global statistics promises, as an integral over the domain. *)
Definition legend_integral (dim n nq : nat) (cells : list fe_cell) (iteration : N) (time : R) (rho : field) (u : nat -> field)
    (t : legend_text) : R :=
  let I g := integral nq cells g in
  let ob a c q := observed n rho u a c q in
  match t with
  | LIteration => IZR (Z.of_N iteration)
  | LTime => time
  | LMean a => I (ob a)
  | LProduct a b => I (fun c q => ob a c q * ob b c q)
  | LThird a => I (fun c q => ob a c q ^ 3)
  | LFourth a => I (fun c q => ob a c q ^ 4)
  | LEnergy => I (fun c q => speed_sq dim n u c q / 2)
  | LEnstrophy => I (curl_sq dim n u)
  | LEnergySq => I (fun c q => (speed_sq dim n u c q / 2) ^ 2)
  | LEnstrophySq => I (fun c q => curl_sq dim n u c q ^ 2)
  end.

(** What the header of results_table.txt promises for a column, for the state the solver is in ([None]: nothing). *)
Definition promised (g : setting) (v : solver_view) (t : column) (x : option R) : Prop :=
  let cells := concat (st_ranks g) in
  let n := st_dofs_per_cell g in let nq := st_n_q g in let dim := st_dim g in
  match t with
  | CIteration => x = Some (IZR (Z.of_N (vi_iteration v)))
  | CTime => x = Some (vi_time v)
  | CMaxU => exists m, x = Some m /\ maxVelocityNorm dim (st_owned g) (vi_u v) = Ok m
  | CMass => x = Some (integral nq cells (at_point n (vi_rho v)))
  | CKinE => x = Some (kineticEnergy g (vi_u v) (vi_rho v))
  | CEnstrophy => x = Some (fst (enstrophy g (vi_u v)))
  | CEntropy => x = entropy n nq (st_ranks g) (st_Q g) (st_weights g) (vi_f v)
  | CMaxP => exists p, x = Some p /\ (exists i, In i (concat (st_owned g)) /\ p = (vi_rho v i - 1) * st_sound g ^ 2)
                       /\ forall i, In i (concat (st_owned g)) -> (vi_rho v i - 1) * st_sound g ^ 2 <= p
  | CMinP => exists p, x = Some p /\ (exists i, In i (concat (st_owned g)) /\ p = (vi_rho v i - 1) * st_sound g ^ 2)
                       /\ forall i, In i (concat (st_owned g)) -> p <= (vi_rho v i - 1) * st_sound g ^ 2
  | CResRho => x = Some (vi_res_rho v)
  | CResU => x = Some (vi_res_u v)
  | CMeanUx => x = meanVelocityX n nq (st_ranks g) (vi_u v 0%nat)
  | CEnstrophySq => x = Some (snd (enstrophy g (vi_u v)))
  end.

(** One-dimensional factors of the multilinear element on the unit interval. *)
Definition lin (b : nat) (t : R) : R := match b with O => 1 - t | _ => t end.
Definition dlin (b : nat) : R := match b with O => -1 | _ => 1 end.
Definition bit (i a : nat) : nat := Nat.modulo (Nat.div i (2 ^ a)) 2.

(** The multilinear element on a square (cube) with side [h] at the origin, vertices numbered lexicographically, with the
    quadrature points [pts] of the unit cell and equal weights. *)
Definition multilinear2 (h : R) (pts : nat -> nat -> R) : fe_cell :=
  {| fc_dof := fun i => i;
     fc_shape := fun i q => lin (bit i 0) (pts q 0%nat) * lin (bit i 1) (pts q 1%nat);
     fc_grad := fun i q k => match k with
       | O => dlin (bit i 0) * lin (bit i 1) (pts q 1%nat) / h
       | S O => lin (bit i 0) (pts q 0%nat) * dlin (bit i 1) / h
       | _ => 0 end;
     fc_JxW := fun _ => h ^ 2 / 4 |}.
Definition multilinear3 (h : R) (pts : nat -> nat -> R) : fe_cell :=
  {| fc_dof := fun i => i;
     fc_shape := fun i q => lin (bit i 0) (pts q 0%nat) * lin (bit i 1) (pts q 1%nat) * lin (bit i 2) (pts q 2%nat);
     fc_grad := fun i q k => match k with
       | O => dlin (bit i 0) * lin (bit i 1) (pts q 1%nat) * lin (bit i 2) (pts q 2%nat) / h
       | S O => lin (bit i 0) (pts q 0%nat) * dlin (bit i 1) * lin (bit i 2) (pts q 2%nat) / h
       | S (S O) => lin (bit i 0) (pts q 0%nat) * lin (bit i 1) (pts q 1%nat) * dlin (bit i 2) / h
       | _ => 0 end;
     fc_JxW := fun _ => h ^ 3 / 8 |}.

(** The points of the Gauss-Lobatto rule (the vertices) and of the Gauss rule with two points per direction. *)
Definition lobatto_points (q a : nat) : R := INR (bit q a).
Definition gauss_points (q a : nat) : R := match bit q a with O => 1/2 - sqrt 3 / 6 | _ => 1/2 + sqrt 3 / 6 end.

(** The quadratic element on the unit square with its Gauss-Lobatto rule (Simpson's rule in each direction); the degrees of
    freedom are the points (x, y) with coordinates 0, 1/2, 1, numbered lexicographically.  Derivatives are not needed. *)
Definition simpson (k : nat) : R := match k with 1%nat => 4/6 | _ => 1/6 end.
Definition biquadratic : fe_cell :=
  {| fc_dof := fun i => i; fc_shape := fun i q => delta i q; fc_grad := fun _ _ _ => 0;
     fc_JxW := fun q => simpson (Nat.modulo q 3) * simpson (Nat.div q 3) |}.
