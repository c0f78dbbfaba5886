(** Model of /repo/src/examples/static-droplet/static_droplet.cpp: the command line, the viscosity computed from the
    relaxation time, the construction of the collision model (CFDSolver.cpp:233-301) and the velocity printed at the
    end.  Simplified: a command line argument is the pair of values std::atoi and std::atof give for it; a negative
    refinement level or order (a number near 2^64 after the conversion to size_t) is [Throw], the memory does not
    suffice; the time integrator (argument 5) and the remaining configuration do not enter. *)
From Verif Require Import Prelude ModelStencils ModelConfigNames ModelCollision ModelOldCollision ModelMultiphase.
From Verif Require ModelCommandLine.
Local Open Scope R_scope.

Record argument := mkArgument { atoi : Z; atof : R }.

(** A mesh is the list of cell->minimum_vertex_distance() of its active cells. *)
Definition mesh := list R.

(** Droplet2D.cpp:53-54 hyper_rectangle: one cell. *)
Definition makeGrid (length height : R) : mesh := [Rmin length height].

(** Droplet2D.h:83-86 refine_global: every cell becomes four cells of half the size, [n] times. *)
Fixpoint refine_global (n : nat) (m : mesh) : mesh :=
  match n with
  | O => m
  | S n => refine_global n (flat_map (fun h => [h / 2; h / 2; h / 2; h / 2]) m)
  end.

(** CFDSolverUtilities.cpp:68-85 getMinimumVertexDistance *)
Definition getMinimumVertexDistance (m : mesh) : R :=
  fold_left (fun d h => if Rlt_dec h d then h else d) m 100000000000.

(** static_droplet.cpp:52-62: an optional argument. *)
Definition optional (a : list argument) (k : nat) (default : Z) : Z :=
  match nth_error a k with Some x => atoi x | None => default end.

(** static_droplet.cpp:44-46: argv without the name of the program.  argv[2] is a null pointer if only one argument
    is given. *)
Definition read_arguments (a : list argument) : outcome (R * R * Z * Z) :=
  match a with
  | [] => Throw
  | [_] => UB
  | g :: t :: _ => Ok (atof g, atof t, optional a 2 3, optional a 3 4)
  end.

(** static_droplet.cpp:98-105 with ProblemDescription.h:208-211: the mesh and the viscosity. *)
Definition droplet_viscosity (m : mesh) (tau : R) (p : Z) : outcome R :=
  obind (ModelCommandLine.calculateTimestep (getMinimumVertexDistance m) p (stencil_of Stencil_D2Q9 1) (8/10)) (fun dt =>
  let v := (tau - 1/2) * dt * st_cs2 (stencil_of Stencil_D2Q9 1) in
  if Rlt_dec 0 v then Ok v else Throw).

(** static_droplet.cpp:34-136, CFDSolver.cpp:233 (refinement), 245-248 (time step), 288-301 (collision model):
    the collision model of the solver.  SolverConfiguration.cpp:154-163: Shan-Chen potential by default. *)
Definition droplet_program (a : list argument) : outcome old_model :=
  obind (read_arguments a) (fun '(G, tau, N, p) =>
  if (N <? 0)%Z then Throw else
  let m := makeGrid 1 1 in
  obind (droplet_viscosity m tau p) (fun v =>
  let m' := refine_global (Z.to_nat N) m in
  obind (ModelCommandLine.calculateTimestep (getMinimumVertexDistance m') p (stencil_of Stencil_D2Q9 1) (8/10)) (fun dt =>
  make_multiphase {| pp_type := SHAN_CHEN; pp_G := G; pp_T := 848997582/10000000000 |} Stencil_D2Q9 1 v dt SHIFTING_VELOCITY (fun _ => 0)))).

(** static_droplet.cpp:145-158: [before], [after] are the velocities at the degrees of freedom before and after the
    collision; the value printed. *)
Definition linfty_norm (v : list R) : R := fold_right (fun x m => Rmax (Rabs x) m) 0 v.
Definition average (a b : R * R) : R * R := ((fst a + fst b) * (1/2), (snd a + snd b) * (1/2)).
Definition printed_velocity (before after : list (R * R)) : R :=
  sqrt (linfty_norm (map (fun u => fst u * fst u + snd u * snd u) (map (fun q => average (fst q) (snd q)) (combine before after)))).
