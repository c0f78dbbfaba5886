(** Specification of values at a boundary. *)
From Verif Require Import Prelude ModelStencils SpecCollision ModelPrescribed.
Local Open Scope R_scope.

(** What a boundary reports about a quantity: nothing, or a function with the value [v] everywhere. *)
Definition absent {A} (o : option A) : Prop := o = None.
Definition reports (o : option function) (v : R) : Prop := exists f, o = Some f /\ forall x, value f x 0 = Ok v.
Definition reports_vector (o : option function) (dim : nat) (u : nat -> R) : Prop :=
  exists f, o = Some f /\ n_components f = dim /\ forall x k, (k < dim)%nat -> value f x k = Ok (u k).

(** ** Fields *)
Definition field := (nat -> R) -> R.
Definition shift (x : nat -> R) (i : nat) (s : R) : nat -> R := fun k => if Nat.eqb k i then x k + s else x k.
(** [d] is the partial derivative of the field in direction [i] at [x] *)
Definition partial (F : field) (x : nat -> R) (i : nat) (d : R) : Prop := derivable_pt_lim (fun s => F (shift x i s)) 0 d.
(** [d] is the second partial derivative in directions [i] and [k] at [x] *)
Definition partial2 (F : field) (x : nat -> R) (i k : nat) (d : R) : Prop :=
  exists G : field, (forall y, partial F y i (G y)) /\ partial G x k d.

(** A finite element function: [shape d] is the shape function of the degree of freedom [d]. *)
Definition fe_field (n : nat) (shape : nat -> field) (v : nat -> R) : field := fun y => sumf n (fun d => v d * shape d y).

(** [gphi] and [hphi] are the first and second derivatives of the shape functions at [x]. *)
Definition shapes (D n : nat) (shape : nat -> field) (x : nat -> R) (phi : nat -> R) (gphi : nat -> nat -> R) (hphi : nat -> nat -> nat -> R) : Prop :=
  (forall d, (d < n)%nat -> shape d x = phi d) /\
  exists grad : nat -> nat -> field,
    (forall d i, (d < n)%nat -> (i < D)%nat -> (forall y, partial (shape d) y i (grad d i y)) /\ grad d i x = gphi d i) /\
    (forall d i k, (d < n)%nat -> (i < D)%nat -> (k < D)%nat -> partial (grad d i) x k (hphi d i k)).

(** The compressible momentum equation: du_i/dt + u.grad u_i = - cs2/rho grad_i rho + nu (laplace u_i + d_i div u),
    at the point [x], with [acc i] in the place of du_i/dt. *)
Definition momentum_equation (D : nat) (cs2 nu : R) (rho : field) (u : nat -> field) (x : nat -> R) (acc : nat -> R) : Prop :=
  exists (gu : nat -> nat -> R) (hu : nat -> nat -> nat -> R) (gr : nat -> R),
    (forall i k, (i < D)%nat -> (k < D)%nat -> partial (u i) x k (gu i k)) /\
    (forall i k l, (i < D)%nat -> (k < D)%nat -> (l < D)%nat -> partial2 (u i) x k l (hu i k l)) /\
    (forall i, (i < D)%nat -> partial rho x i (gr i)) /\
    forall i, (i < D)%nat ->
      acc i + sumf D (fun k => u k x * gu i k) = - cs2 / rho x * gr i + nu * sumf D (fun k => hu i k k + hu k i k).
(** The continuity equation: drho/dt + div (rho u) = 0 for the momentum density [j]. *)
Definition continuity_equation (D : nat) (j : nat -> field) (x : nat -> R) (drhodt : R) : Prop :=
  exists dj : nat -> R, (forall i, (i < D)%nat -> partial (j i) x i (dj i)) /\ drhodt + sumf D dj = 0.
(** The requests that are served: nothing, rho, rho and u, and these with one or both time derivatives. *)
Definition served (flags : N) : Prop := In flags [0%N; 1%N; 3%N; 11%N; 19%N; 27%N].
