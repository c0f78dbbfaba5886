(** What the spectral filter promises. *)
From Verif Require Import Prelude.
Local Open Scope R_scope.

(** A tensor product mode is given by its degrees per direction. *)
Definition multi := list nat.

(** The degrees of mode number [i] of [dim] directions, first direction slowest. *)
Fixpoint degrees_of (dim p i : nat) : multi :=
  match dim with
  | O => []
  | S d => (i / Nat.pow (p + 1) d)%nat :: degrees_of d p (i mod Nat.pow (p + 1) d)
  end.
Definition total_degree (m : multi) : nat := fold_right plus O m.
Definition max_degree (m : multi) : nat := fold_right Nat.max O m.

(** The degree that counts, and the largest one. *)
Definition counted (by_sum : bool) (m : multi) : nat := if by_sum then total_degree m else max_degree m.
Definition highest (by_sum : bool) (dim p : nat) : nat := if by_sum then (dim * p)%nat else p.

(** The mode as a function. *)
Fixpoint mode (leg : nat -> R -> R) (m : multi) (x : nat -> R) : R :=
  match m with [] => 1 | d :: r => leg d (x 0%nat) * mode leg r (fun k => x (S k)) end.
Definition basis (leg : nat -> R -> R) (dim p i : nat) : (nat -> R) -> R := mode leg (degrees_of dim p i).

(** Damping of degree [d] out of the highest degree [D] (Gassner and Beck 2011). *)
Definition damping (alpha s : R) (Nc D d : nat) : R :=
  if Nat.ltb d Nc then 1
  else exp (- alpha * Rpower ((INR d + 1 - INR Nc) / (INR D + 1 - INR Nc)) s).

(** Quadrature: number of points, points, weights. *)
Record quadrature := mkQuad { qn : nat; qpoint : nat -> nat -> R; qweight : nat -> R }.
Definition integral (q : quadrature) (u : (nat -> R) -> R) : R :=
  sumf (qn q) (fun k => qweight q k * u (qpoint q k)).

(** The function with coefficients [f] in the functions [phi]. *)
Definition expansion (n : nat) (phi : nat -> (nat -> R) -> R) (f : nat -> R) (x : nat -> R) : R :=
  sumf n (fun i => f i * phi i x).

(** [g] are the coefficients, in the modes [psi], of the projection of the cell function with
    nodal values [f]. *)
Definition coefficients (n : nat) (q : quadrature) (shape psi : nat -> (nat -> R) -> R) (f g : nat -> R) : Prop :=
  forall k, (k < n)%nat ->
    integral q (fun x => expansion n shape f x * psi k x) = integral q (fun x => expansion n psi g x * psi k x).

(** Scalar products of two families. *)
Definition gram (q : quadrature) (psi phi : nat -> (nat -> R) -> R) (k i : nat) : R :=
  integral q (fun x => phi i x * psi k x).

Definition inverse_of (n : nat) (X Y : nat -> nat -> R) : Prop :=
  forall i j, (i < n)%nat -> (j < n)%nat ->
    sumf n (fun k => X i k * Y k j) = delta i j /\ sumf n (fun k => Y i k * X k j) = delta i j.
Definition regular (n : nat) (X : nat -> nat -> R) : Prop := exists Y, inverse_of n X Y.
(** A matrix inversion that works on all regular matrices. *)
Definition inverts (inv : nat -> (nat -> nat -> R) -> nat -> nat -> R) : Prop :=
  forall n X, regular n X -> inverse_of n X (inv n X).

(** The quadrature resolves the modes and the shape functions. *)
Definition resolved (dim p : nat) (q : quadrature) (leg : nat -> R -> R) (shape : nat -> (nat -> R) -> R) : Prop :=
  regular (Nat.pow (p + 1) dim) (gram q (basis leg dim p) (basis leg dim p)) /\
  regular (Nat.pow (p + 1) dim) (gram q (basis leg dim p) shape).

(** The first mode is a constant, orthogonal to the others. *)
Definition mean_mode (dim p : nat) (q : quadrature) (leg : nat -> R -> R) : Prop :=
  exists c, c <> 0 /\ (forall x, leg 0%nat x = c) /\
    forall i, (0 < i < Nat.pow (p + 1) dim)%nat -> integral q (basis leg dim p i) = 0.

(** What the three-dimensional filter counts instead: the second degree is overlooked and the
    third one counts for it. *)
Definition overlooked (m : multi) : multi := match m with [a; _; c] => [a; c; c] | _ => m end.

(** Damping of the second filter: no cut-off. *)
Definition damping_new (alpha s : R) (D d : nat) : R :=
  exp (- alpha * (if Nat.eqb d 0 then 0 else Rpower (INR d / INR D) s)).

(** Trilinear and bilinear elements with the trapezoidal rule, and the first two Legendre
    polynomials of the unit interval, for the examples. *)
Definition trapezoid (dim : nat) : quadrature :=
  mkQuad (Nat.pow 2 dim) (fun q k => if Nat.testbit q k then 1 else 0) (fun _ => / INR (Nat.pow 2 dim)).
Definition linear_legendre (d : nat) (x : R) : R :=
  match d with O => 1 | 1%nat => sqrt 3 * (2 * x - 1) | _ => 0 end.
Fixpoint linear_shape (dim i : nat) (x : nat -> R) : R :=
  match dim with O => 1 | S d => (if Nat.testbit i d then x d else 1 - x d) * linear_shape d i x end.
