(** The multistep collision object (BGKMultistep).

    Sources: collision/BGKMultistep.h, collision/BGKMultistep.cpp, collision/MultistepCollisionData.h,
    solver/CFDSolver.cpp:331-347.

    Simplified: real numbers instead of doubles; a loop over a list of owned degrees of freedom; the
    two time steps kept by BGK (m_dt) and CollisionModel (m_timeStep) are one number (BGK.h:105-112
    sets both, and BGKMultistep.cpp:17 calls it in the constructor); populations as functions of
    (node, direction); the equilibrium of BGKMultistep.cpp:31-50 is that of BGKStandard. *)
From Verif Require Import Prelude ModelStencils ModelConfigNames ModelEquilibria ModelCollision ModelOldCollision.
Local Open Scope R_scope.

(** BGKMultistep.h:27-31. *)
Inductive multistep_scheme := ADAMSMOULTON4 | BDF2.

(** The BGK part of the object, CollisionModel::m_viscosity, m_model. *)
Record multi := { mu_m : old_model; mu_nu : R; mu_scheme : multistep_scheme }.

(** CFDSolver.cpp:331-347: the relaxation parameter, the constructor, setViscosity. *)
Definition make_multi (k : multistep_scheme) (t : StencilType) (s viscosity dt : R) : outcome multi :=
  obind (calculateRelaxationParameter BGKStandard viscosity dt (stencil_of t s)) (fun tau =>
  Ok {| mu_m := old_new t s tau dt; mu_nu := viscosity; mu_scheme := k |}).

(** CFDSolver.cpp:350-359. *)
Definition multi_force (m : multi) (ft : ForceType) (F : nat -> R) : multi :=
  {| mu_m := with_force (mu_m m) ft F; mu_nu := mu_nu m; mu_scheme := mu_scheme m |}.

(** The fields of the solver together with MultistepCollisionData.h:18-21 (m_formerF, m_formerFEq,
    m_firstCollision). *)
Record mstate := { ms_x : fields; ms_F : nat -> nat -> R; ms_FEq : nat -> nat -> R; ms_first : bool }.

Section Multi.
  Variables (m : multi) (init : bool).
  Let o := mu_m m.
  Let s := om_s o.
  Let st := stencil_of (om_t o) s.
  Let cs2 := st_cs2 st.
  Let p := s / cs2.

  (** BGKMultistep.cpp:93-109 and 402-418. *)
  Definition multi_lambda : R := mu_nu m / cs2.
  Definition factor0 : R :=
    match mu_scheme m with
    | ADAMSMOULTON4 => - 1 / (12 / 13 * multi_lambda / om_dt o + 5 / 13)
    | BDF2 => - 1 / (9 / 8 * multi_lambda / om_dt o + 3 / 4)
    end.
  Definition factor1 : R :=
    match mu_scheme m with
    | ADAMSMOULTON4 => 1 / (12 * multi_lambda / om_dt o + 5)
    | BDF2 => 1 / (9 / 2 * multi_lambda / om_dt o + 3)
    end.
  (** BGKMultistep.cpp:116 and 403: the factor of the single step scheme, used by the forces. *)
  Definition relax_factor : R := - 1 / (multi_lambda / om_dt o + 1/2).

  (** The BGK part as seen by the forces. *)
  Definition forced : old_model :=
    {| om_t := om_t o; om_s := s; om_tau := om_tau o; om_prefactor := relax_factor; om_dt := om_dt o;
       om_forceType := om_forceType o; om_F := om_F o |}.

  (** BGKMultistep.cpp:297-331: one population. *)
  Definition advance (f feq F FEq : R) : R :=
    match mu_scheme m with
    | ADAMSMOULTON4 => f + (factor0 * (f - feq) + factor1 * (F - FEq))
    | BDF2 => 4/3 * f - 1/3 * F + factor0 * (f - feq) + factor1 * (F - FEq)
    end.

  (** BGKMultistep.cpp:190-387, one degree of freedom: new populations, density, velocity and the
      equilibrium.  In the initialisation u_0_i and u_1_i are read without having been set. *)
  Definition multi_node_D2Q9 (f F FEq : nat -> R) : outcome (node_out * (nat -> R)) :=
    let rho := sumf 9 f in
    checked rho (
    if init then UB else
    let (stored, v) := force_velocities forced rho (raw_D2Q9 s rho f) in
    let q := - (v 0%nat * v 0%nat + v 1%nat * v 1%nat) / (2 * cs2) in
    let feq := feq_D2Q9 (1/2) q p rho v in
    let f1 i := advance (f i) (feq i) (F i) (FEq i) in
    let f2 := match om_forceType o with
              | EXACT_DIFFERENCE => fun i => f1 i + edm_D2Q9 (om_F o) v rho (om_dt o) p i
              | GUO => fun i => f1 i + guo_D2Q9 (om_F o) v (- relax_factor) p (om_dt o) i
              | _ => f1
              end in
    Ok ({| no_f := f2; no_rho := rho; no_u := stored |}, feq)).

  (** BGKMultistep.cpp:529-773, one degree of freedom: the new populations are computed in the local
      array f_i, which is not copied back; neither are the former populations.  In the initialisation
      u_0_i, u_1_i and u_2_i are read without having been set. *)
  Definition multi_node_D3Q19 (f : nat -> R) : outcome (R * (nat -> R)) :=
    let rho := sumf 19 f in
    checked rho (if init then UB else Ok (rho, fst (force_velocities forced rho (raw_D3Q19 s rho f)))).

  (** BGKMultistep.cpp:186-387: the loop, with the copies of 350-385. *)
  Fixpoint multi_loop_D2Q9 (nodes : list nat) (x : mstate) : outcome mstate :=
    match nodes with
    | [] => Ok x
    | n :: rest =>
        obind (multi_node_D2Q9 (fl_f (ms_x x) n) (ms_F x n) (ms_FEq x n)) (fun r =>
        multi_loop_D2Q9 rest
          {| ms_x := {| fl_f := upd (fl_f (ms_x x)) n (no_f (fst r));
                        fl_rho := upd (fl_rho (ms_x x)) n (no_rho (fst r));
                        fl_u := upd (fl_u (ms_x x)) n (no_u (fst r)) |};
             ms_F := upd (ms_F x) n (fl_f (ms_x x) n);
             ms_FEq := upd (ms_FEq x) n (snd r);
             ms_first := ms_first x |})
    end.

  (** BGKMultistep.cpp:525-774. *)
  Fixpoint multi_loop_D3Q19 (nodes : list nat) (x : mstate) : outcome mstate :=
    match nodes with
    | [] => Ok x
    | n :: rest =>
        obind (multi_node_D3Q19 (fl_f (ms_x x) n)) (fun r =>
        multi_loop_D3Q19 rest
          {| ms_x := {| fl_f := fl_f (ms_x x);
                        fl_rho := upd (fl_rho (ms_x x)) n (fst r);
                        fl_u := upd (fl_u (ms_x x)) n (snd r) |};
             ms_F := ms_F x; ms_FEq := ms_FEq x; ms_first := ms_first x |})
    end.

  (** BGKMultistep.cpp:57-63 (reinit: zeros). *)
  Definition reinit (x : mstate) : mstate :=
    if ms_first x then {| ms_x := ms_x x; ms_F := fun _ _ => 0; ms_FEq := fun _ _ => 0; ms_first := true |} else x.

  (** BGKMultistep.cpp:118-124 and 420-426. *)
  Definition start_history (x : mstate) : mstate :=
    if ms_first x then {| ms_x := ms_x x; ms_F := fl_f (ms_x x); ms_FEq := fl_f (ms_x x); ms_first := true |} else x.

  (** BGKMultistep.cpp:52-86: nothing is done, and nothing reported, for any other stencil. *)
  Definition multi_collideAll (nodes : list nat) (x : mstate) : outcome mstate :=
    let x1 := reinit x in
    obind (match om_t o with
           | Stencil_D2Q9 => multi_loop_D2Q9 nodes (start_history x1)
           | Stencil_D3Q19 => multi_loop_D3Q19 nodes (start_history x1)
           | _ => Ok x1
           end) (fun x2 =>
    Ok {| ms_x := ms_x x2; ms_F := ms_F x2; ms_FEq := ms_FEq x2; ms_first := false |}).
End Multi.

(** CFDSolver.cpp:660-745: streaming moves the populations and, once there is a history, the former
    populations and equilibria, all with the same operator. *)
Definition multi_stream (T : (nat -> nat -> R) -> (nat -> nat -> R)) (x : mstate) : mstate :=
  {| ms_x := {| fl_f := T (fl_f (ms_x x)); fl_rho := fl_rho (ms_x x); fl_u := fl_u (ms_x x) |};
     ms_F := if ms_first x then ms_F x else T (ms_F x);
     ms_FEq := if ms_first x then ms_FEq x else T (ms_FEq x);
     ms_first := ms_first x |}.
