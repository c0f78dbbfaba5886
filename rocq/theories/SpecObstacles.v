(** What is expected of the flows around obstacles, in terms of velocities, densities and points. *)
From Verif Require Import Prelude.
Local Open Scope R_scope.

(** The value of a successful call. *)
Definition val (o : outcome R) : R := match o with Ok v => v | _ => 0 end.

(** Partial derivatives of a plane field. *)
Definition dx (f : R -> R -> R) (x y d : R) : Prop := derivable_pt_lim (fun s => f s y) x d.
Definition dy (f : R -> R -> R) (x y d : R) : Prop := derivable_pt_lim (fun s => f x s) y d.

(** Without sources and without rotation. *)
Definition potential_at (u v : R -> R -> R) (x y : R) : Prop :=
  exists ux uy vx vy, dx u x y ux /\ dy u x y uy /\ dx v x y vx /\ dy v x y vy /\ ux + vy = 0 /\ vx = uy.

(** Steady incompressible flow without friction with pressure c2 rho (mean density one). *)
Definition steady_euler_at (c2 : R) (u v rho : R -> R -> R) (x y : R) : Prop :=
  exists ux uy vx vy rx ry, dx u x y ux /\ dy u x y uy /\ dx v x y vx /\ dy v x y vy /\ dx rho x y rx /\ dy rho x y ry /\
    ux + vy = 0 /\ u x y * ux + v x y * uy + c2 * rx = 0 /\ u x y * vx + v x y * vy + c2 * ry = 0.

(** Squared speed of sound of stencil and gas in lattice units: (scaling^2 / 3), times gamma T for the compressible gas. *)
Definition sound_speed (scaling gamma T : R) (compressible : bool) : R :=
  scaling / sqrt 3 * (if compressible then sqrt (gamma * T) else 1).

Definition mach (speed sound : R) : R := speed / sound.
Definition reynolds (speed length viscosity : R) : R := speed * length / viscosity.

(** A point of space in a closed box with integer corners, and in its interior. *)
Definition in_box (i j k : Z * Z) (x y z : R) : Prop :=
  (IZR (fst i) <= x <= IZR (snd i)) /\ (IZR (fst j) <= y <= IZR (snd j)) /\ (IZR (fst k) <= z <= IZR (snd k)).
Definition inside_box (i j k : Z * Z) (x y z : R) : Prop :=
  (IZR (fst i) < x < IZR (snd i)) /\ (IZR (fst j) < y < IZR (snd j)) /\ (IZR (fst k) < z < IZR (snd k)).
