(** Model of /repo/src/library/natrium/solver/Checkpoint.cpp and of the restart path of
    the CFDSolver constructor (CFDSolver.cpp:180-242, 363-400, 568-571).

    Simplified: the mesh of the checkpoint and of the new run are equal (no interpolation
    to a refined mesh), one MPI rank, iteration numbers fit into [int]. *)
From Verif Require Import Prelude ModelText ModelStencils ModelConfigNames ModelEquilibria ModelCollision ModelRun.
Open Scope R_scope.

(** Decimal output with the default precision of std::ofstream (6 significant digits) and
    reading back (Checkpoint.cpp:84, 134). *)
Definition print_read (x : R) : R := print_digits 6 x.

Section Directory.
  Context {D : Type}.

  (** A pair of files checkpoint_n.stat / checkpoint_n.data ([fi_g = false]) or
      checkpointG_n.stat / checkpointG_n.data ([fi_g = true]). *)
  Record file := { fi_g : bool; fi_number : nat; fi_status : status; fi_data : D }.

  (** The checkpoint directory; writing a file shadows older files of the same name. *)
  Definition directory := list file.

  Definition same_name (g : bool) (n : nat) (f : file) : bool := (Bool.eqb g (fi_g f) && Nat.eqb n (fi_number f))%bool.

  (** Reading the files of one name; [None] if they do not exist (Checkpoint.h exists()). *)
  Definition lookup (dir : directory) (g : bool) (n : nat) : option file := find (same_name g n) dir.

  (** Checkpoint.cpp:28-71: the constructor.  The result is the number in the file names.
      For iteration 1 the directory is scanned; removing the prefix of the wanted kind from
      a file of the other kind leaves "checkpointG_..." or "checkpoint_...", on which
      std::stoi throws (48-51). *)
  Definition checkpoint (iteration : nat) (isG : bool) (dir : directory) : outcome nat :=
    if Nat.eqb iteration 1 then
      fold_left (fun it f => obind it (fun m => if Bool.eqb (fi_g f) isG then Ok (Nat.max m (fi_number f)) else Throw)) dir (Ok iteration)
    else Ok iteration.

  (** Checkpoint.cpp:73-109 applied to a Checkpoint object for file number [m].  The status
      goes through decimal text. *)
  Definition write (m : nat) (isG : bool) (st : status) (d : D) (dir : directory) : directory :=
    {| fi_g := isG; fi_number := m;
       fi_status := {| cs_time := print_read (cs_time st); cs_iteration := cs_iteration st;
                       cs_scaling := print_read (cs_scaling st); cs_order := cs_order st |};
       fi_data := d |} :: dir.

  (** Checkpoint(m_i, dir).write(...) as in CFDSolver.cpp:1090-1098. *)
  Definition save (iteration : nat) (st : status) (d : D) (dir : directory) : outcome directory :=
    obind (checkpoint iteration false dir) (fun m => Ok (write m false st d dir)).

  (** CompressibleCFDSolver.h:561-572: both constructors first, then both writes. *)
  Definition save_compressible (iteration : nat) (st : status) (d g : D) (dir : directory) : outcome directory :=
    obind (checkpoint iteration false dir) (fun m =>
    obind (checkpoint iteration true dir) (fun mg =>
    Ok (write mg true st g (write m false st d dir)))).

  (** utilities/CFDSolverUtilities.cpp:299-334 (make_stencil). *)
  Definition make_stencil (d q : nat) : outcome StencilType :=
    match d, q with
    | 2%nat, 9%nat => Ok Stencil_D2Q9
    | 2%nat, 25%nat => Ok Stencil_D2Q25H
    | 3%nat, 15%nat => Ok Stencil_D3Q15
    | 3%nat, 19%nat => Ok Stencil_D3Q19
    | 3%nat, 27%nat => Ok Stencil_D3Q27
    | 3%nat, 45%nat => Ok Stencil_D3Q45
    | 3%nat, 13%nat => Ok Stencil_D3Q13
    | 3%nat, 21%nat => Ok Stencil_D3Q21
    | _, _ => Throw
    end.

  (** CFDSolver.cpp:184-197 and Checkpoint.cpp:114-329 for a solver with stencil [t]
      and finite element order [order]: constructor, exists(), load().  natrium_errorexit
    counts as an exception; the stencil made at Checkpoint.cpp:314-315 is not used, but
    making it may throw. *)
  Definition load (restart_i : nat) (t : StencilType) (order : nat) (dir : directory) : outcome (status * D) :=
    obind (checkpoint restart_i false dir) (fun m =>
    match lookup dir false m with
    | None => Throw
    | Some f =>
        if Nat.eqb (cs_order (fi_status f)) order then
          obind (make_stencil (st_D (stencil_of t 1)) (st_Q (stencil_of t 1))) (fun _ => Ok (fi_status f, fi_data f))
        else Throw
    end).
End Directory.
Arguments file : clear implicits.
Arguments directory : clear implicits.

(** CFDSolver.cpp:1484-1524 (calculateDensitiesAndVelocities) for one node with populations
    [f] and stored velocity [u]: lines 1500-1506 accumulate the momentum in writeable_u,
    line 1517 overwrites it. *)
Definition calculateDensityAndVelocity (st : stencil) (f u : nat -> R) : R * (nat -> R) :=
  let rho := sumf (st_Q st) f in
  let one_by_rho := 1 / rho in
  (rho, fun j => u j * one_by_rho).

(** The solver constructed for a restart (CFDSolver.cpp:227-242, 363-400): restored
    populations [f] in file data; m_velocity is freshly created (zero, 369-378). *)
Definition restored_fields (st : stencil) (f : nat -> nat -> R) : fields :=
  {| fl_f := f;
     fl_rho := fun n => fst (calculateDensityAndVelocity st (f n) (fun _ => 0));
     fl_u := fun n => snd (calculateDensityAndVelocity st (f n) (fun _ => 0)) |}.

(** [dt] is computed from mesh, order, stencil and CFL number (245-248) as for a fresh run;
    residua are 1 (399-400), m_tmpVelocity and m_tmpDensity freshly created. *)
Definition restarted {X} (st : status) (x : X) (dt : R) : solver X :=
  {| sv_start := cs_iteration st; sv_i := cs_iteration st; sv_time := cs_time st; sv_dt := dt; sv_x := x;
     sv_tmp_u := fun _ _ => 0; sv_tmp_rho := fun _ => 0; sv_res_u := 1; sv_res_rho := 1 |}.

(** A fresh run (232-242). *)
Definition fresh {X} (x : X) (dt : R) : solver X :=
  {| sv_start := 0; sv_i := 0; sv_time := 0; sv_dt := dt; sv_x := x;
     sv_tmp_u := fun _ _ => 0; sv_tmp_rho := fun _ => 0; sv_res_u := 1; sv_res_rho := 1 |}.

(** ** The incompressible solver with its collision operators *)

(** CFDSolver.cpp:806-843: selectCollision on the owned nodes, for a configuration
    matched by one line of the table.  The operations used only by the initialisation
    are not filled in (identity): a CFDSolver initialises before run(). *)
Definition cfd_ops (k : T_collision) (q : T_equilibrium) (gd : genData) (st : stencil) (s : R) (nodes : list nat)
    (advect : R -> (nat -> nat -> R) -> nat -> nat -> R) (filt : (nat -> nat -> R) -> nat -> nat -> R) : solver_ops fields (nat -> nat -> R) :=
  let lift g (x : fields) := {| fl_f := g (fl_f x); fl_rho := fl_rho x; fl_u := fl_u x |} in
  {| so_nodes := nodes; so_dim := st_D st; so_scaling := s; so_velocity := fl_u; so_density := fl_rho;
     so_data := fl_f;
     so_collide := collideAll k q gd false nodes;
     so_advect := fun t => lift (advect t);
     so_integrate := fun dt x => (lift (advect dt) x, dt);
     so_filter := lift filt; so_processors := [];
     so_init_collide := fun x => x; so_set_equilibrium := fun x => x; so_add_gradients := fun x => x |}.
