(** Initial fields of examples/step-decayingTurbulence2D and examples/step-mixingLayer3D. *)
From Verif Require Import Prelude.
Local Open Scope R_scope.

(** DecayingTurbulence2D.cpp:84-96, 109-113: the amplitude of the stream function of a wave (n, m);
    C0 = 1e-9, A = 6, B = 17, k0 = 4.  Undefined for n = m = 0 (a quotient of zeros), which is drawn with
    probability zero; here 0. *)
Definition stream_amplitude (n m : R) : R :=
  let k := sqrt (n * n + m * m) in
  (1 / 1000000000 * k ^ 6 / (1 + (k / 4) ^ 18)) / (k * k).

(** DecayingTurbulence2D.cpp:98-119: the loop over the drawn waves. *)
Fixpoint waves (ds : list (R * R)) (x y : R) (component : nat) : R :=
  match ds with
  | [] => 0
  | (n, m) :: r =>
      let psi := stream_amplitude n m in
      let sine := sin (2 * PI * n * x + 2 * PI * m * y) in
      (match component with 0%nat => - psi * 2 * PI * m * sine | _ => psi * 2 * PI * n * sine end)
      + waves r x y component
  end.

(** DecayingTurbulence2D.cpp:78-127, one call: the next hundred pairs of the generator of dealii, which is
    not the one reset by srand (line 100); [pos] counts the calls made before. *)
Definition sample (gen : nat -> R * R) (pos : nat) (x y : R) (component : nat) : R * nat :=
  (waves (map gen (seq (100 * pos) 100)) x y component, S pos).
(** CFDSolver.cpp:1398-1411: both components at one point, one after the other. *)
Definition sample_point (gen : nat -> R * R) (pos : nat) (x y : R) : R * R * nat :=
  let a := sample gen pos x y 0 in
  let b := sample gen (snd a) x y 1 in
  (fst a, fst b, snd b).

(** MixingLayer3D.cpp:38-51 with the thickness 1; the coordinate normal to the layer is the second. *)
Definition mixing_velocity (y : R) (component : nat) : outcome R :=
  match component with
  | 0%nat => Ok (tanh (- y / (2 * 1)))
  | 1%nat => Ok 0
  | 2%nat => Ok 0
  | _ => Throw
  end.
(** MixingLayer3D.cpp:79-80, 110-124: lower and upper boundary (ids 2, 3) with their velocities. *)
Definition mixing_walls : list (R * R) := [(- (4 * atan 1), 1); (4 * atan 1, -1)].
