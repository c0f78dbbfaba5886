(** Model of the boundary conditions with a temperature: boundaries/SLEquilibriumBoundary.h,
    boundaries/ThermalBounceBack.cpp, SemiLagrangianBoundaryHandler::applyToG, and of the order in which
    CompressibleCFDSolver streams the populations f and g. *)
From Verif Require Import Prelude ModelStencils ModelEquilibria ModelSemiLagrangian ModelWalls.
Local Open Scope R_scope.

(** SLEquilibriumBoundary.h:98-177: the value assigned to direction [a]; [u] is the prescribed velocity, [T] is
    m_temperature.  [st] is the scaled stencil.  (exu, uxu and to_add are computed there but not used.) *)
Definition sl_equilibrium (st : stencil) (u : nat -> R) (T : R) (a : nat) : R :=
  let D := st_D st in
  let density := 1 in
  let weight := st_w st a in
  let e_vel := st_e st a in
  let cs2 := st_cs2 st in
  let uu := sumf D (fun j => - (u j * u j) / (2 * cs2)) in
  let T1 := cs2 * (T - 1) in
  let ue := sumf D (fun j => (u j * e_vel j) / cs2) in
  weight * density * (1 + ue * (1 + 1/2 * ue) + uu)
  + sumf D (fun alp => sumf D (fun bet =>
      density * weight / (2 * cs2) * ((T - 1) * delta alp bet * e_vel alp * e_vel bet - cs2 * delta alp bet * (T - 1))
      + sumf D (fun gam =>
          weight * density / (6 * cs2 * cs2 * cs2)
            * (u alp * u bet * u gam + T1 * (delta alp bet * u gam + delta bet gam * u alp + delta alp gam * u bet))
            * (e_vel alp * e_vel bet * e_vel gam
               - cs2 * (e_vel gam * delta alp bet + e_vel bet * delta alp gam + e_vel alp * delta bet gam))
          + sumf D (fun det =>
              let power4 := e_vel alp * e_vel bet * e_vel gam * e_vel det in
              let power2 := e_vel alp * e_vel bet * delta gam det + e_vel alp * e_vel gam * delta bet det
                          + e_vel alp * e_vel det * delta bet gam + e_vel bet * e_vel gam * delta alp det
                          + e_vel bet * e_vel det * delta alp gam + e_vel gam * e_vel det * delta alp bet in
              let power0 := delta alp bet * delta gam det + delta alp gam * delta bet det + delta alp det * delta bet gam in
              let u4 := u alp * u bet * u gam * u det in
              let u2 := u alp * u bet * delta gam det + u alp * u gam * delta bet det + u alp * u det * delta bet gam
                      + u bet * u gam * delta alp det + u bet * u det * delta alp gam + u gam * u det * delta alp bet in
              let multieye := delta alp bet * delta gam det + delta alp gam * delta bet det + delta alp det * delta bet gam in
              weight * density / (24 * cs2 * cs2 * cs2 * cs2) * (power4 - cs2 * power2 + cs2 * cs2 * power0)
                * (u4 + T1 * (u2 + T1 * multieye)))))).

(** AuxiliaryCollisionFunctions.h:309-326: calculateTemperature with explicit cs2 and gamma. *)
Definition calculateTemperature_gamma (L : stencil) (gamma : R) (f g velocity : nat -> R) (density : R) : R :=
  let temperature := sumf (st_Q L) (fun i =>
     sumf (st_D L) (fun a => (st_e L i a - velocity a) * (st_e L i a - velocity a)) * f i / st_cs2 L + g i) in
  let C_v := 1 / (gamma - 1) in
  temperature * (1/2) / (density * C_v).
(** AuxiliaryCollisionFunctions.h:433-443: calculateGeqFromFeq with explicit temperature and gamma. *)
Definition calculateGeqFromFeq_gamma (D : nat) (T gamma : R) (feq : nat -> R) (i : nat) : R :=
  let C_v := 1 / (gamma - 1) in feq i * T * (2 * C_v - INR D).

(** ThermalBounceBack.cpp:50-95: what is computed from the populations of the node: [None] if they stay as they are,
    otherwise the new f and g.  (g_destination - geq is computed there but not used; neither are the direction of
    the hit, its time, or the prescribed velocity.)  In a 2D instance no stencil has 45 directions. *)
Definition thermal_values (st : stencil) (scaling Tw : R) (f g : nat -> R) : outcome (option ((nat -> R) * (nat -> R))) :=
  let gamma := 14 / 10 in
  if negb (Nat.eqb (st_Q st) 45) then Throw else
  let L := unscale st scaling in
  obind (calculateDensity 45 f) (fun rho =>
  let u := calculateVelocity L f rho in
  let T := calculateTemperature_gamma L gamma f g u rho in
  if Rlt_dec (1 / 10 ^ 5) (Rabs (T - Tw)) then
    let feq := QuarticEquilibrium_calc L rho u T in
    let feq_w := QuarticEquilibrium_calc L rho u Tw in
    Ok (Some (fun i => f i - feq i + feq_w i, calculateGeqFromFeq_gamma (st_D st) Tw gamma feq_w))
  else Ok None).
(** The node afterwards, f and g stored separately (BoundaryTools.h:281-289) ... *)
Definition thermal_node (st : stencil) (scaling Tw : R) (f g : nat -> R) : outcome ((nat -> R) * (nat -> R)) :=
  obind (thermal_values st scaling Tw f g) (fun o => Ok (match o with Some fg => fg | None => (f, g) end)).
(** ... and without g: BoundaryTools.h:270-280 binds m_g to f_new, so ThermalBounceBack.cpp:85-94 writes
    f_new twice in each direction and the second value stays. *)
Definition thermal_node_f (st : stencil) (scaling Tw : R) (f : nat -> R) : outcome (nat -> R) :=
  obind (thermal_values st scaling Tw f f) (fun o => Ok (match o with Some fg => snd fg | None => f end)).

Section Fields.
  Context {cell : Type} (M : mesh cell) (st : stencil) (scaling : R) (opp : nat -> nat) (dt : R).
  Notation hit_tree := (hit_tree (cell := cell)).

  (** Boundary conditions in a simulation with f and g.  [EquilibriumBC] is the one whose name is
      VELOCITY_EQUILIBRIUM_BOUNDARY. *)
  Inductive condition_fg :=
  | PlainBC (c : condition)
  | EquilibriumBC (u : R -> point -> point) (T : R)
  | ThermalBC (Tw : R).
  Variable bc : nat -> condition_fg.

  (** All directions at a degree of freedom. *)
  Definition node_of (f : populations) (i : nat) : nat -> R := fun a => f a i.
  Definition set_node (Q : nat) (f : populations) (i : nat) (v : nat -> R) : populations :=
    fun a j => if (Nat.eqb j i && Nat.ltb a Q)%bool then v a else f a j.

  Definition apply_hit_fg (x : point) (t : R) (fg : populations * populations) (h : hit cell)
      : outcome (populations * populations) :=
    let (f, g) := fg in let a := hit_direction h in let i := hit_index h in
    match bc (hit_boundary h) with
    | PlainBC c => Ok (calculateBoundaryValues M (st_e st) (st_w st) (st_cs2 st) opp c f x a i (hit_dt h) t, g)
    | EquilibriumBC u T => Ok (set_pop f a i (sl_equilibrium st (u (t - hit_dt h) x) T a), g)
    | ThermalBC Tw => obind (thermal_node st scaling Tw (node_of f i) (node_of g i)) (fun v =>
        Ok (set_node 45 f i (fst v), set_node 45 g i (snd v)))
    end.
  Fixpoint apply_hits_fg (x : point) (t : R) (hs : list (hit cell)) (fg : populations * populations)
      : outcome (populations * populations) :=
    match hs with [] => Ok fg | h :: r => obind (apply_hit_fg x t fg h) (apply_hits_fg x t r) end.
  Fixpoint apply_points_fg (t : R) (q : list (point * list (hit cell))) (fg : populations * populations)
      : outcome (populations * populations) :=
    match q with [] => Ok fg | (x, hs) :: r => obind (apply_hits_fg x t hs fg) (apply_points_fg t r) end.
  (** SemiLagrangianBoundaryHandler.cpp:45-110 operate, with g in the global data. *)
  Fixpoint operate_fg (t : R) (cells : list cell) (m : cell -> hit_tree) (fg : populations * populations)
      : outcome (populations * populations) :=
    match cells with
    | [] => Ok fg
    | c :: r => obind (quadrature M c (elements (m c))) (fun q => obind (apply_points_fg t q fg) (operate_fg t r m))
    end.

  (** SemiLagrangianBoundaryHandler.cpp:112-164 applyToG. *)
  Definition applyToG_hit (gamma : R) (f : populations) (g : populations) (h : hit cell) : populations :=
    let C_v := 1 / (gamma - 1) in let temperature := 1 in
    match bc (hit_boundary h) with
    | EquilibriumBC _ _ => set_pop g (hit_direction h) (hit_index h)
        (f (hit_direction h) (hit_index h) * temperature * (2 * C_v - INR (st_D st)))
    | _ => g
    end.
  Definition applyToG (gamma : R) (cells : list cell) (m : cell -> hit_tree) (f g : populations) : populations :=
    fold_left (fun g c => fold_left (fun g xh => fold_left (applyToG_hit gamma f) (snd xh) g) (elements (m c)) g) cells g.

  (** One step of CompressibleCFDSolver.h:1022-1023, semi-Lagrangian, without limiter and multistep schemes:
      stream (180-206, 241): f is streamed, then the boundary conditions see the streamed f and the g that is
      not streamed yet; gStream (271-288): g is streamed, then applyToG.  Direction 0 is not streamed. *)
  Definition stream_fg (gamma : R) (z : list entry) (m : cell -> hit_tree) (cells : list cell)
      (s : populations * populations * R) : outcome (populations * populations * R) :=
    let '(f, g, m_time) := s in
    obind (operate_fg m_time cells m (multiply z f, g)) (fun fg =>
      Ok (fst fg, applyToG gamma cells m (fst fg) (multiply z (snd fg)), m_time + dt)).
End Fields.
