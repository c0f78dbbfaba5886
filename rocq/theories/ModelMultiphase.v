(** Model of collision/BGKPseudopotential.cpp and .h (the collision scheme "BGK multiphase") and of its
    construction in CFDSolver.cpp:288-301, 354-362.  [double] is [R]; a failed assertion is [Throw]; [UB] is the use
    of a variable without a value or a result that is no number. *)
From Verif Require Import Prelude ModelStencils ModelConfigNames ModelEquilibria ModelCollision ModelOldCollision.
Local Open Scope R_scope.

(** BGKPseudopotential.h:26-32 PseudopotentialParameters. *)
Record pp_parameters := { pp_type : PseudopotentialType; pp_G : R; pp_T : R }.

(** BGKPseudopotential.cpp:26-41: the assertions of the constructor. *)
Definition pp_asserts (P : pp_parameters) : bool :=
  if Req_EM_T (pp_G P) 0 then false
  else match pp_type P with
       | CARNAHAN_STARLING => if Req_EM_T (pp_T P) 0 then false else true
       | _ => true
       end.

(** CFDSolver.cpp:288-301 (relaxation time of BGKStandardTransformed) and 354-362: the force type is always set,
    the force only if the problem has one ([F] is zero otherwise). *)
Definition make_multiphase (P : pp_parameters) (t : StencilType) (s viscosity dt : R) (ft : ForceType) (F : nat -> R)
  : outcome old_model :=
  obind (calculateRelaxationParameter BGKStandardTransformed viscosity dt (stencil_of t s)) (fun tau =>
  if pp_asserts P then Ok (with_force (old_new t s tau dt) ft F) else Throw).

(** ** The force (BGKPseudopotential.cpp:337-385) *)

(** 363-365 *)
Definition p_CS (T rho : R) : R :=
  rho * T * (1 + rho + rho ^ 2 - rho ^ 3) / (1 - rho) ^ 3 - rho ^ 2.
(** 367-376, the factor of the density gradient *)
Definition dp_CS (T rho : R) : R :=
  T * (1 + 4 * rho + 4 * rho ^ 2 - 4 * rho ^ 3 + rho ^ 4) / (1 - rho) ^ 4 - 2 * rho.

(** [grad] is density_gradient, [ext] the external force; None: the result is no number (the root of a negative
    number, or a division by zero: 1 - rho or pCS - cs2 rho). *)
Definition pp_force (P : pp_parameters) (cs2 rho : R) (grad ext : nat -> R) : option (nat -> R) :=
  let G := pp_G P in
  match pp_type P with
  | SHAN_CHEN =>
      let psi := 1 - exp (- rho) in
      Some (fun j => - G * psi * exp (- rho) * grad j + ext j)
  | SUKOP =>
      let psi0 := 4 in let rho0 := 200 in
      let psi := psi0 * exp (- rho / rho0) in
      Some (fun j => - G * psi * (- psi0 / rho0) * exp (- rho / rho0) * grad j + ext j)
  | CARNAHAN_STARLING =>
      let T := pp_T P * cs2 in
      let pCS := p_CS T rho in
      let radicand := 2 * (pCS - cs2 * rho) / G in
      if Req_EM_T rho 1 then None
      else if Req_EM_T (pCS - cs2 * rho) 0 then None
      else if Rlt_dec radicand 0 then None
      else
        let psi := sqrt radicand in
        let grad_psi j := grad j * dp_CS T rho - cs2 * grad j / (2 * G * (pCS - cs2 * rho)) in
        Some (fun j => - G * psi * grad_psi j + ext j)
  end.

(** ** Collision *)

Definition set_force (m : old_model) (F : nat -> R) : old_model :=
  {| om_t := om_t m; om_s := om_s m; om_tau := om_tau m; om_prefactor := om_prefactor m; om_dt := om_dt m;
     om_forceType := om_forceType m; om_F := F |}.

(** BGKPseudopotential.cpp:205-480, the body of the loop over the degrees of freedom of a cell.  [rho] is the entry
    of densities (computed before the loop), [grad] is density_gradient, which 240 sets to zero (its computation,
    241-324, is commented out).  In the initialisation (394) u_0_i and u_1_i have no value.  The equilibrium
    (421-449), the relaxation (452-460) and the exact difference force (464-468) are those of BGKStandard.cpp; there
    is no source term for GUO (469). *)
Definition pp_node (P : pp_parameters) (m : old_model) (init : bool) (rho : R) (f u : nat -> R) : outcome node_out :=
  let st := stencil_of (om_t m) (om_s m) in
  let cs2 := st_cs2 st in
  let p := om_s m / cs2 in
  let r := om_prefactor m in
  checked rho (
  let grad (j : nat) := 0 in
  if init then UB
  else match pp_force P cs2 rho grad (om_F m) with
  | None => UB
  | Some force =>
      let (stored, v) := force_velocities (set_force m force) rho (raw_D2Q9 (om_s m) rho f) in
      let q := - (v 0%nat * v 0%nat + v 1%nat * v 1%nat) / (2 * cs2) in
      let f1 := add_relaxed r f (feq_D2Q9 (1/2) q p rho v) in
      let f2 := match om_forceType m with
                | EXACT_DIFFERENCE => fun i => f1 i + edm_D2Q9 force v rho (om_dt m) p i
                | _ => f1
                end in
      Ok {| no_f := f2; no_rho := rho; no_u := stored |}
  end).

(** The loop over the degrees of freedom of the cells; the density is not stored again. *)
Fixpoint pp_loop (P : pp_parameters) (m : old_model) (init : bool) (dofs : list nat) (s : fields) : outcome fields :=
  match dofs with
  | [] => Ok s
  | n :: rest =>
      obind (pp_node P m init (fl_rho s n) (fl_f s n) (fl_u s n)) (fun o =>
      pp_loop P m init rest
        {| fl_f := upd (fl_f s) n (no_f o); fl_rho := fl_rho s; fl_u := upd (fl_u s) n (no_u o) |})
  end.

(** BGKPseudopotential.cpp:110-484.  [cells] are the locally owned cells, each with its degrees of freedom
    (localDoFIndices). *)
Definition pp_collideAllD2Q9 (P : pp_parameters) (m : old_model) (init : bool) (cells : list (list nat)) (s : fields)
  : outcome fields :=
  pp_loop P m init (concat cells)
    {| fl_f := fl_f s; fl_rho := fun n => sumf 9 (fl_f s n); fl_u := fl_u s |}.

(** BGK.cpp:47-117 with the equilibrium of BGKPseudopotential.cpp:50-71 (that of BGKStandard). *)
Fixpoint pp_generic_loop (m : old_model) (init : bool) (nodes : list nat) (s : fields) : outcome fields :=
  match nodes with
  | [] => Ok s
  | n :: rest =>
      obind (node_generic m init BGKStandard (fl_f s n) (fl_u s n)) (fun o =>
      pp_generic_loop m init rest
        {| fl_f := upd (fl_f s) n (no_f o); fl_rho := upd (fl_rho s) n (no_rho o);
           fl_u := upd (fl_u s) n (no_u o) |})
  end.

(** BGKPseudopotential.cpp:94-108. *)
Definition pp_collideAll (P : pp_parameters) (m : old_model) (init : bool) (cells : list (list nat)) (nodes : list nat)
  (s : fields) : outcome fields :=
  match om_forceType m with
  | NO_FORCING => Throw
  | _ =>
      match om_t m with
      | Stencil_D2Q9 => pp_collideAllD2Q9 P m init cells s
      | _ => pp_generic_loop m init nodes s
      end
  end.
