(** The incompressible solver with discontinuous Galerkin streaming: CFDSolver.cpp:402-411 (Runge-Kutta integrator over the
    block system with blocks f_1 .. f_(Q-1)), 658-664 and 723-749 (stream), 806-843 (collide).  Puts the time loop of ModelRun, the
    collision of ModelCollision, the operator of ModelSEDG and the integrator of ModelTimeIntegration together. *)
From Verif Require Import Prelude ModelStencils ModelConfigNames ModelEquilibria ModelCollision ModelRun ModelCheckpoint ModelSemiLagrangian ModelSEDG
  ModelTimeIntegration SpecSEDGRun.
Local Open Scope R_scope.

(** m_f.getFStream(): the populations 1 .. Q-1 on [N] nodes, block after block ([f n a]: node, direction). *)
Definition f_stream (N : nat) (f : nat -> nat -> R) (r : nat) : R := f (r mod N)%nat (Datatypes.S (r / N)).

(** CFDSolver.cpp:723-727: m_timeIntegrator->step(f, systemMatrix, systemVector, 0.0, m_timeIntegrator->getTimeStepSize()) with
    the five stage Runge-Kutta method.  Population 0 (m_f.at(0)) is not in the system.  With the stored time step as argument the
    step does not throw (the remaining branches are there for totality). *)
Definition dg_stream (N Q : nat) (s : system) (dt : R) (f : nat -> nat -> R) (n a : nat) : R :=
  match a with
  | O => f n O
  | Datatypes.S b =>
      match rk5_step ((Q - 1) * N) dt (f_stream N f) (flat_matrix N s) (flat_vector N s) 0 dt with
      | Ok r => sp_f r (b * N + n)%nat
      | _ => f n a
      end
  end.

(** The solver: collision [k] with equilibrium [q] and parameters [gd], streaming with the assembled system [s]. *)
Definition dg_ops (k : T_collision) (q : T_equilibrium) (gd : genData) (st : stencil) (scaling : R) (nodes : list nat) (N : nat) (s : system)
    (filt : (nat -> nat -> R) -> nat -> nat -> R) : solver_ops fields (nat -> nat -> R) :=
  cfd_ops k q gd st scaling nodes (dg_stream N (st_Q st) s) filt.
