(** Specifications for the semi-Lagrangian streaming. *)
From Verif Require Import Prelude ModelSemiLagrangian.
Local Open Scope R_scope.

(** The closed unit cell, and the unit cell enlarged by 1e-10. *)
Definition inside (dim : nat) (x : nat -> R) : Prop := forall i, (i < dim)%nat -> 0 <= x i <= 1.
Definition nearly_inside (dim : nat) (x : nat -> R) : Prop :=
  forall i, (i < dim)%nat -> - (1 / 10 ^ 10) < x i < 1 + 1 / 10 ^ 10.
(** The straight path from [a] (l = 0) to [b] (l = 1). *)
Definition along (a b : nat -> R) (l : R) : nat -> R := fun i => a i + l * (b i - a i).
(** Face number [f] is the face of direction [d] at coordinate [s] (deal.II numbering 2 d + s). *)
Definition is_face (f d s : nat) : Prop := f = (2 * d + s)%nat /\ (s = 0%nat \/ s = 1%nat).
(** [x] lies beyond that face by at least 1e-10. *)
Definition beyond (x : nat -> R) (d s : nat) : Prop :=
  if Nat.eqb s 0 then x d <= - (1 / 10 ^ 10) else 1 + 1 / 10 ^ 10 <= x d.

(** A convex cell: intersection of the half spaces [sign f * (x - p_f) . n_f <= 0]. *)
Definition side (dim : nat) (plane : nat -> point * point) (sign : nat -> R) (f : nat) (x : nat -> R) : R :=
  sign f * dot dim (fun i => x i - fst (plane f) i) (snd (plane f)).
Definition in_cell (dim : nat) (plane : nat -> point * point) (sign : nat -> R) (x : nat -> R) : Prop :=
  forall f, (f < 2 * dim)%nat -> side dim plane sign f x <= 0.
Definition strictly_in_cell (dim : nat) (plane : nat -> point * point) (sign : nat -> R) (x : nat -> R) : Prop :=
  forall f, (f < 2 * dim)%nat -> side dim plane sign f x < 0.
Definition is_sign (dim : nat) (sign : nat -> R) : Prop := forall f, (f < 2 * dim)%nat -> sign f = 1 \/ sign f = -1.

(** The point lies in the cell, up to 1e-10 in unit coordinates. *)
Definition located {cell} (M : mesh cell) (c : cell) (x : nat -> R) : Prop :=
  exists u, to_unit M c x = Some u /\ nearly_inside (dim M) u.

(** ** Cartesian meshes that are periodic in all directions *)
Local Open Scope Z_scope.
Definition index := nat -> Z.
Definition move (z : index) (d : nat) (k : Z) : index := fun i => if Nat.eqb i d then k else z i.
Definition shift (d : nat) (a : R) (x : nat -> R) : nat -> R := fun i => if Nat.eqb i d then (x i + a)%R else x i.
(** [N d] cells of width [h d] in direction [d], numbered from 0. *)
Definition torus_behind (N : nat -> Z) (h : nat -> R) (z : index) (f : nat) : behind index :=
  let d := (f / 2)%nat in
  if Nat.eqb (f mod 2) 0 then
    if Z.eqb (z d) 0 then PeriodicFace (shift d (IZR (N d) * h d)) (move z d (N d - 1)) else Neighbor (move z d (z d - 1))
  else
    if Z.eqb (z d) (N d - 1) then PeriodicFace (shift d (- (IZR (N d) * h d))) (move z d 0) else Neighbor (move z d (z d + 1)).
Definition torus (D : nat) (N : nat -> Z) (h : nat -> R) (plane : index -> nat -> point * point) : mesh index :=
  mkMesh D (fun z x => Some (fun i => (x i / h i - IZR (z i))%R)) (fun z u i => ((u i + IZR (z i)) * h i)%R)
    plane (torus_behind N h) (fun _ => true).
Definition in_grid (D : nat) (N : nat -> Z) (z : index) : Prop := forall i, (i < D)%nat -> 0 <= z i < N i.
(** Number of faces between two cells (of the unfolded mesh). *)
Fixpoint distance (D : nat) (a b : index) : nat :=
  match D with O => 0%nat | S k => (distance k a b + Z.abs_nat (a k - b k))%nat end.
(** Equal up to whole periods. *)
Definition congruent (D : nat) (N : nat -> Z) (h : nat -> R) (x y : nat -> R) : Prop :=
  forall i, (i < D)%nat -> exists k : Z, (x i = y i + IZR k * (IZR (N i) * h i))%R.

(** ** Fields *)
Local Open Scope R_scope.
(** The finite element functions reproduce [F] exactly on cell [c]. *)
Definition reproduces {cell} (M : mesh cell) (n : nat) (node : nat -> point) (shape : nat -> point -> R)
    (F : point -> R) (c : cell) : Prop :=
  forall u, inside (dim M) u -> sumf n (fun j => shape j u * F (to_real M c (node j))) = F (to_real M c u).
Definition partition_of_unity (D n : nat) (shape : nat -> point -> R) : Prop :=
  forall u, inside D u -> sumf n (fun j => shape j u) = 1.
(** Time step restriction: paths cross fewer than 50 faces. *)
Definition short_paths (D : nat) (h : nat -> R) (e : nat -> point) (dt : R) (Q : nat) : Prop :=
  forall a, (1 <= a < Q)%nat -> sumf D (fun i => Rabs (dt * e a i) / h i) + INR D < 50.
(** Equal up to whole periods and 1e-10 of a cell. *)
Definition nearly_congruent (D : nat) (N : nat -> Z) (h : nat -> R) (x y : nat -> R) : Prop :=
  forall i, (i < D)%nat -> exists k : Z, Rabs (x i - (y i + IZR k * (IZR (N i) * h i))) <= 1 / 10 ^ 10 * h i.
(** Degrees of freedom with the same number sit at the same place. *)
Definition consistent_dofs (D : nat) (N : nat -> Z) (h : nat -> R) {cell} (M : mesh cell) (n : nat) (node : nat -> point)
    (dofs : cell -> nat -> nat) (cells : list cell) : Prop :=
  forall c c' j j', In c cells -> In c' cells -> (j < n)%nat -> (j' < n)%nat -> dofs c j = dofs c' j' ->
  congruent D N h (to_real M c (node j)) (to_real M c' (node j')).
