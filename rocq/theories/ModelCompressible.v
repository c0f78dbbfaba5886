(** The compressible solver: solver/CompressibleCFDSolver.h (constructor, applyCheckpointToG, stream and gStream with the Galerkin scheme,
    collide, calcQuarticEquilibrium, initializeDistributions).  The time loop is the one of ModelRun with rc_compressible = true.
    Left out: m_maskShockSensor (written by the collision, read by the output only), ghost exchange, the iterative initialisation. *)
From Verif Require Import Prelude ModelStencils ModelConfigNames ModelEquilibria ModelCollision ModelRun ModelCheckpoint ModelSEDG ModelTimeIntegration ModelSimulation.
Local Open Scope R_scope.

(** m_f, m_g, m_density, m_velocity, m_temperature. *)
Record fields_g := { fg_f : nat -> nat -> R;   (* node, direction *)
                     fg_g : nat -> nat -> R;
                     fg_rho : nat -> R;
                     fg_u : nat -> nat -> R;   (* node, component *)
                     fg_T : nat -> R }.

(** CollisionOperator.h:153-216: loop over the locally owned nodes; also returns genData.density as left behind by the last node. *)
Fixpoint collide_loop_g (q : T_equilibrium) (gd : genData) (nodes : list nat) (density : R) (s : fields_g) : outcome (fields_g * R) :=
  match nodes with
  | [] => Ok (s, density)
  | n :: rest =>
      obind (collide_node_g q gd false (fg_f s n) (fg_g s n) (fg_u s n)) (fun o =>
      collide_loop_g q gd rest (ng_rho o)
        {| fg_f := upd (fg_f s) n (ng_f o); fg_g := upd (fg_g s) n (ng_g o); fg_rho := upd (fg_rho s) n (ng_rho o);
           fg_u := upd (fg_u s) n (ng_u o); fg_T := upd (fg_T s) n (ng_T o) |})
  end.
(** CollisionOperator.h:113-225: collideAll with two populations; lines 218-221 throw DensityZeroException. *)
Definition collideAll_g (q : T_equilibrium) (gd : genData) (nodes : list nat) (s : fields_g) : outcome fields_g :=
  obind (collide_loop_g q gd nodes 0 s) (fun sd => if Rle_dec (snd sd) (1 / 10^10) then Throw else Ok (fst sd)).

(** CompressibleCFDSolver.h:790-848 (calcQuarticEquilibrium) in direction [i]; [L] holds e, weight and cs2. *)
Definition calcQuarticEquilibrium (L : stencil) (density : R) (velocity : nat -> R) (temperature : R) (i : nat) : R :=
  let dim := st_D L in let weight := st_w L i in let e := st_e L i in let cs2 := st_cs2 L in
  let uu_term := sumf dim (fun j => - (velocity j * velocity j) / (2 * cs2)) in
  let T1 := cs2 * (temperature - 1) in
  let ue_term := sumf dim (fun j => (velocity j * e j) / cs2) in
  weight * density * (1 + ue_term * (1 + 1/2 * ue_term) + uu_term)
  + sumf dim (fun alp => sumf dim (fun bet =>
      density * weight / (2 * cs2) * ((temperature - 1) * delta alp bet * e alp * e bet - cs2 * delta alp bet * (temperature - 1))
      + sumf dim (fun gam =>
          weight * density / (6 * cs2 * cs2 * cs2)
            * (velocity alp * velocity bet * velocity gam + T1 * (delta alp bet * velocity gam + delta bet gam * velocity alp + delta alp gam * velocity bet))
            * (e alp * e bet * e gam - cs2 * (e gam * delta alp bet + e bet * delta alp gam + e alp * delta bet gam))
          + sumf dim (fun det =>
              let power4 := e alp * e bet * e gam * e det in
              let power2 := e alp * e bet * delta gam det + e alp * e gam * delta bet det + e alp * e det * delta bet gam
                          + e bet * e gam * delta alp det + e bet * e det * delta alp gam + e gam * e det * delta alp bet in
              let power0 := delta alp bet * delta gam det + delta alp gam * delta bet det + delta alp det * delta bet gam in
              let u4 := velocity alp * velocity bet * velocity gam * velocity det in
              let u2 := velocity alp * velocity bet * delta gam det + velocity alp * velocity gam * delta bet det + velocity alp * velocity det * delta bet gam
                      + velocity bet * velocity gam * delta alp det + velocity bet * velocity det * delta alp gam + velocity gam * velocity det * delta alp bet in
              let multieye := delta alp bet * delta gam det + delta alp gam * delta bet det + delta alp det * delta bet gam in
              weight * density / (24 * cs2 * cs2 * cs2 * cs2) * (power4 - cs2 * power2 + cs2 * cs2 * power0) * (u4 + T1 * (u2 + T1 * multieye)))))).

(** CompressibleCFDSolver.h:850-912 (initializeDistributions): the populations set at the locally owned nodes; the velocities u are divided by the
    scaling (882-884), e and cs2 are those of the stencil without scaling (857-867). *)
Definition initialize (gamma : R) (st : stencil) (scaling : R) (nodes : list nat) (x : fields_g) : fields_g :=
  let L := unscale st scaling in
  let C_v := 1 / (gamma - 1) in
  let feq n := calcQuarticEquilibrium L (fg_rho x n) (fun j => fg_u x n j / scaling) (fg_T x n) in
  let owned n := existsb (Nat.eqb n) nodes in
  {| fg_f := fun n => if owned n then feq n else fg_f x n;
     fg_g := fun n => if owned n then fun j => feq n j * fg_T x n * (2 * C_v - INR (st_D st)) else fg_g x n;
     fg_rho := fg_rho x; fg_u := fg_u x; fg_T := fg_T x |}.

(** The solver with the Galerkin scheme and the five stage Runge-Kutta method: lines 246-271 (stream) and 308-311 (gStream: the same matrix and
    vector for g; the time step it returns is dropped).  compressibleFilter filters f and g (321-334).  The operations of the iterative
    initialisation are not filled in. *)
Definition dg_ops_g (q : T_equilibrium) (gd : genData) (gamma : R) (st : stencil) (scaling : R) (nodes : list nat) (N : nat) (s : system)
    (filt : (nat -> nat -> R) -> nat -> nat -> R) : solver_ops fields_g ((nat -> nat -> R) * (nat -> nat -> R)) :=
  let lift h (x : fields_g) := {| fg_f := h (fg_f x); fg_g := h (fg_g x); fg_rho := fg_rho x; fg_u := fg_u x; fg_T := fg_T x |} in
  {| so_nodes := nodes; so_dim := st_D st; so_scaling := scaling; so_velocity := fg_u; so_density := fg_rho;
     so_data := fun x => (fg_f x, fg_g x);
     so_collide := collideAll_g q gd nodes;
     so_advect := fun t => lift (dg_stream N (st_Q st) s t);
     so_integrate := fun dt x => (lift (dg_stream N (st_Q st) s dt) x, dt);
     so_filter := lift filt; so_processors := [];
     so_init_collide := fun x => x; so_set_equilibrium := initialize gamma st scaling nodes; so_add_gradients := fun x => x |}.

(** ** Restart *)
(** CompressibleCFDSolver.h:140-168 (applyCheckpointToG): the file with g is not read (170-171 are a comment); g is made from f.  [vel] is the sum
    over the directions, not divided by the density. *)
Definition restored_g (gamma_new : R) (st : stencil) (scaling : R) (f : nat -> R) (i : nat) : R :=
  let dim := st_D st in
  let density := sumf (st_Q st) f in
  let vel a := sumf (st_Q st) (fun j => st_e st j a / scaling * f j) in
  let sum j := sumf dim (fun a => (st_e st j a / scaling - vel a) * (st_e st j a / scaling - vel a)) in
  let gamma_old := (INR dim + 2) / INR dim in
  let C_v_old := 1 / (gamma_old - 1) in
  let C_v_new := 1 / (gamma_new - 1) in
  let temperature := sumf (st_Q st) (fun j => sum j * f j / (st_cs2 st / scaling / scaling)) * (1/2) / (density * C_v_old) in
  f i * temperature * (2 * C_v_new - INR dim).

(** CompressibleCFDSolver.h:75-93: the temperature of node [n] with populations [f] and [g].  Line 85 reads m_velocity at the number of the
    direction instead of the number of the node: an error if that degree of freedom is not among those this process knows ([known]). *)
Definition restored_temperature (gamma : R) (st : stencil) (known : nat -> bool) (velocity : nat -> nat -> R) (density : R) (f g : nat -> R) : outcome R :=
  if forallb known (seq 0 (st_Q st)) then
    let sum i := sumf (st_D st) (fun a => (st_e st i a - velocity i a) * (st_e st i a - velocity i a)) in
    let temperature := sumf (st_Q st) (fun i => sum i * f i / st_cs2 st + g i) in
    let C_v := 1 / (gamma - 1) in
    Ok (temperature * (1/2) / (density * C_v))
  else Throw.

(** CompressibleCFDSolver.h:38-102 with a checkpoint: the constructor of CFDSolver restores f, density and velocity (ModelCheckpoint), line 71
    computes the latter two once more; then g and the temperature of the owned nodes follow. *)
Definition restored_fields_g (gamma : R) (st : stencil) (scaling : R) (known : nat -> bool) (nodes : list nat) (f : nat -> nat -> R) : outcome fields_g :=
  let first := restored_fields st f in
  let rho n := fst (calculateDensityAndVelocity st (f n) (fl_u first n)) in
  let u n := snd (calculateDensityAndVelocity st (f n) (fl_u first n)) in
  let g n := restored_g gamma st scaling (f n) in
  let T n := restored_temperature gamma st known u (rho n) (f n) (g n) in
  if forallb (fun n => match T n with Ok _ => true | _ => false end) nodes
  then Ok {| fg_f := f; fg_g := g; fg_rho := rho; fg_u := u; fg_T := fun n => match T n with Ok v => v | _ => 0 end |}
  else Throw.
