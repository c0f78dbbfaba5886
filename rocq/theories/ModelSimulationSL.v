(** The incompressible solver with semi-Lagrangian streaming on a domain without boundaries: CFDSolver.cpp:669-679 (stream),
    806-843 (collide).  Puts the time loop of ModelRun, the collision of ModelCollision and the matrix of ModelSemiLagrangian together. *)
From Verif Require Import Prelude ModelStencils ModelConfigNames ModelEquilibria ModelCollision ModelRun ModelCheckpoint ModelSemiLagrangian ModelWalls.
Local Open Scope R_scope.

(** CFDSolver.cpp:669-679: systemMatrix.vmult(m_f.getFStream(), f_tmp.getFStream()); without boundaries applyBoundaryConditions has no
    hits to work on.  [f n a]: node, direction.  Directions from [Q] on do not exist; they are kept here. *)
Definition sl_stream (Q : nat) (z : list entry) (f : nat -> nat -> R) (n a : nat) : R :=
  if Nat.ltb a Q then multiply z (fun b i => f i b) a n else f n a.

(** The solver: collision [k] with equilibrium [q] and parameters [gd], streaming with the assembled matrix [z]. *)
Definition sl_ops (k : T_collision) (q : T_equilibrium) (gd : genData) (st : stencil) (scaling : R) (nodes : list nat) (z : list entry)
    (filt : (nat -> nat -> R) -> nat -> nat -> R) : solver_ops fields (nat -> nat -> R) :=
  cfd_ops k q gd st scaling nodes (fun _ => sl_stream (st_Q st) z) filt.
