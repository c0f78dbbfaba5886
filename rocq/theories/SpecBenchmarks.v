(** Vocabulary for the benchmark flows: differential equations satisfied by fields on the plane
    or in space (functions of real numbers), bulk velocity of a profile, transformations of a grid. *)
From Coq Require Import Reals.
Local Open Scope R_scope.

(** [u'] is the partial derivative of [u] in the first, second, third argument, everywhere. *)
Definition d1 (u u' : R -> R -> R -> R) := forall a b c, derivable_pt_lim (fun s => u s b c) a (u' a b c).
Definition d2 (u u' : R -> R -> R -> R) := forall a b c, derivable_pt_lim (fun s => u a s c) b (u' a b c).
Definition d3 (u u' : R -> R -> R -> R) := forall a b c, derivable_pt_lim (fun s => u a b s) c (u' a b c).

(** The plane velocity field (u, v), functions of x, y and the time, has divergence zero. *)
Definition divergence_free2 (u v : R -> R -> R -> R) :=
  exists ux vy, d1 u ux /\ d2 v vy /\ forall x y t, ux x y t + vy x y t = 0.

(** The incompressible Navier-Stokes equations in the plane with density 1, viscosity [nu] and pressure [p]. *)
Definition navier_stokes (nu : R) (u v p : R -> R -> R -> R) :=
  exists ux uy ut uxx uyy vx vy vt vxx vyy px py,
    (d1 u ux /\ d2 u uy /\ d3 u ut /\ d1 ux uxx /\ d2 uy uyy) /\
    (d1 v vx /\ d2 v vy /\ d3 v vt /\ d1 vx vxx /\ d2 vy vyy) /\
    (d1 p px /\ d2 p py) /\
    forall x y t,
      ux x y t + vy x y t = 0 /\
      ut x y t + u x y t * ux x y t + v x y t * uy x y t = - px x y t + nu * (uxx x y t + uyy x y t) /\
      vt x y t + u x y t * vx x y t + v x y t * vy x y t = - py x y t + nu * (vxx x y t + vyy x y t).

(** The velocity field (u, v, w) in space has divergence zero. *)
Definition divergence_free3 (u v w : R -> R -> R -> R) :=
  exists ux vy wz, d1 u ux /\ d2 v vy /\ d3 w wz /\ forall x y z, ux x y z + vy x y z + wz x y z = 0.

(** The pressure belonging to an incompressible velocity field in space:
    minus its Laplacian is the double contraction of the velocity gradient with its transpose. *)
Definition pressure_poisson (u v w p : R -> R -> R -> R) :=
  exists ux uy uz vx vy vz wx wy wz px py pz pxx pyy pzz,
    (d1 u ux /\ d2 u uy /\ d3 u uz) /\ (d1 v vx /\ d2 v vy /\ d3 v vz) /\ (d1 w wx /\ d2 w wy /\ d3 w wz) /\
    (d1 p px /\ d2 p py /\ d3 p pz /\ d1 px pxx /\ d2 py pyy /\ d3 pz pzz) /\
    forall x y z,
      - (pxx x y z + pyy x y z + pzz x y z) =
      ux x y z * ux x y z + vy x y z * vy x y z + wz x y z * wz x y z
      + 2 * (uy x y z * vx x y z + uz x y z * wx x y z + vz x y z * wy x y z).

(** [w], a function of height and time, satisfies the diffusion equation with coefficient [nu] at all
    positive times. *)
Definition diffusion (nu : R) (w : R -> R -> R) :=
  exists wh whh wt, forall h t, 0 < t ->
    derivable_pt_lim (fun s => w s t) h (wh h t) /\
    derivable_pt_lim (fun s => wh s t) h (whh h t) /\
    derivable_pt_lim (fun s => w h s) t (wt h t) /\
    wt h t = nu * whh h t.

(** A steady flow along a channel of the given height, driven by a force per mass and held at both walls. *)
Definition steady_channel (nu force height : R) (u : R -> R) :=
  exists u' u'', (forall y, 0 <= y <= height -> derivable_pt_lim u y (u' y) /\ derivable_pt_lim u' y (u'' y) /\
                                                nu * u'' y + force = 0) /\
  u 0 = 0 /\ u height = 0.

(** The mean of [u] over the interval from [a] to [b]: the increase of any antiderivative per length. *)
Definition mean_over (a b : R) (u : R -> R) (m : R) :=
  exists W, (forall y, a <= y <= b -> derivable_pt_lim W y (u y)) /\ (W b - W a) / (b - a) = m.

(** [f] maps the interval from [a] to [b] onto the interval from [c] to [d] in the same order, ends to ends. *)
Definition keeps_order (a b c d : R) (f : R -> R) :=
  f a = c /\ f b = d /\ forall x y, a <= x -> x < y -> y <= b -> f x < f y.

(** No two points of the rectangle [0,a] x [0,b] are mapped to the same point. *)
Definition one_to_one_on (a b : R) (f : R * R -> R * R) :=
  forall p q, 0 <= fst p <= a -> 0 <= snd p <= b -> 0 <= fst q <= a -> 0 <= snd q <= b -> f p = f q -> p = q.

(** Period [L] in the argument. *)
Definition periodic (L : R) (g : R -> R) := forall x, g (x + L) = g x.

(** The first [n] terms of the Fourier series of the flow between a resting plate at height 0 and a
    plate at height [L] that moves with velocity [U] from time 0 on. *)
Fixpoint couette_series (nu U L : R) (n : nat) (h t : R) : R :=
  match n with
  | O => U * h / L
  | S k => couette_series nu U L k h t
           + 2 * U / (INR n * PI) * (-1) ^ n * exp (- (nu * (INR n * PI / L) ^ 2 * t)) * sin (INR n * PI / L * h)
  end.
