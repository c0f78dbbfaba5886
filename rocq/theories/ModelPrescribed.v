(** Model of boundaries/BoundaryFlags.h, the boundary functions of BoundaryTools.h, and FEBoundaryValues.h. *)
From Verif Require Import Prelude ModelStencils.
Local Open Scope R_scope.

(** BoundaryFlags.h:20-31; | and & (33-54) are [N.lor] and [N.land]. *)
Definition only_distributions : N := 0.
Definition boundary_rho : N := 1.
Definition boundary_u : N := 2.
Definition boundary_du_dx : N := 4.
Definition boundary_drho_dt : N := 8.
Definition boundary_du_dt : N := 16.
Definition boundary_d2u_dxdt : N := 32.
Definition boundary_p : N := 64.
Definition boundary_dp_dt : N := 128.
Definition boundary_pUT : N := 256.
(** a flag expression in a condition *)
Definition has (flag flags : N) : bool := negb (N.eqb (N.land flag flags) 0).

(** ** Functions at the boundary (dealii::Function and TensorFunction; time is part of the function object) *)
Record function := { n_components : nat; value : (nat -> R) -> nat -> outcome R }.
Definition tensor_function := (nat -> R) -> nat -> nat -> R.

(** BoundaryTools.h:63-79 BoundaryPressure *)
Definition BoundaryPressure (p : R) : function := {| n_components := 1; value := fun _ _ => Ok p |}.
(** BoundaryTools.h:81-97 BoundaryTemperature *)
Definition BoundaryTemperature (T : R) : function := {| n_components := 1; value := fun _ _ => Ok T |}.
(** BoundaryTools.h:98-124 BoundaryVelocity: the constructors from a vector (103-107, assertion on its size) and from a
    tensor (108-112); value asserts component < dim. *)
Definition BoundaryVelocity (dim : nat) (u : nat -> R) : function :=
  {| n_components := dim; value := fun _ k => if Nat.ltb k dim then Ok (u k) else Throw |}.
Definition BoundaryVelocity_vector (dim : nat) (u : list R) : outcome function :=
  if Nat.eqb (length u) dim then Ok (BoundaryVelocity dim (fun k => nth k u 0)) else Throw.
(** BoundaryTools.h:126-140 BoundaryVelocityGradient *)
Definition BoundaryVelocityGradient (g : nat -> nat -> R) : tensor_function := fun _ => g.

(** ** PrescribedBoundaryValues (BoundaryFlags.h:60-66); None is a null pointer *)
Record prescribed := { pv_flags : N; pv_pressure : option function; pv_velocity : option function;
  pv_temperature : option function; pv_gradient : option tensor_function }.

(** 72-74 *)
Definition pv_none : prescribed :=
  {| pv_flags := only_distributions; pv_pressure := None; pv_velocity := None; pv_temperature := None; pv_gradient := None |}.
(** 79-84: the copy constructor; m_temperature is default-initialised. *)
Definition pv_copy (o : prescribed) : prescribed :=
  {| pv_flags := pv_flags o; pv_pressure := pv_pressure o; pv_velocity := pv_velocity o; pv_temperature := None;
     pv_gradient := pv_gradient o |}.
(** 91-104 *)
Definition pv_function (dim : nat) (f : function) : outcome prescribed :=
  if Nat.eqb (n_components f) 1 then
    Ok {| pv_flags := boundary_p; pv_pressure := Some f; pv_velocity := None; pv_temperature := None; pv_gradient := None |}
  else if Nat.eqb (n_components f) dim then
    Ok {| pv_flags := boundary_u; pv_pressure := None; pv_velocity := Some f; pv_temperature := None; pv_gradient := None |}
  else Throw.
(** 109-113, 163-167 *)
Definition pv_tensor_function (f : tensor_function) : prescribed :=
  {| pv_flags := boundary_du_dx; pv_pressure := None; pv_velocity := None; pv_temperature := None; pv_gradient := Some f |}.
Definition pv_of_gradient (g : nat -> nat -> R) : prescribed := pv_tensor_function (BoundaryVelocityGradient g).
(** 119-123 *)
Definition pv_of_pressure (p : R) : prescribed :=
  {| pv_flags := boundary_p; pv_pressure := Some (BoundaryPressure p); pv_velocity := None; pv_temperature := None; pv_gradient := None |}.
(** 129-133 *)
Definition pv_of_velocity (dim : nat) (u : nat -> R) : prescribed :=
  {| pv_flags := boundary_u; pv_pressure := None; pv_velocity := Some (BoundaryVelocity dim u); pv_temperature := None; pv_gradient := None |}.
(** 153-157 *)
Definition pv_of_vector (dim : nat) (u : list R) : outcome prescribed :=
  obind (BoundaryVelocity_vector dim u) (fun f =>
  Ok {| pv_flags := boundary_u; pv_pressure := None; pv_velocity := Some f; pv_temperature := None; pv_gradient := None |}).
(** 139-147 *)
Definition pv_of_pUT (dim : nat) (p : R) (u : nat -> R) (T : R) : prescribed :=
  {| pv_flags := boundary_pUT; pv_pressure := Some (BoundaryPressure p); pv_velocity := Some (BoundaryVelocity dim u);
     pv_temperature := Some (BoundaryTemperature p); pv_gradient := None |}.

(** Boundary.h:87-92, 109-111: the boundary keeps a copy of the values; getBoundaryValues returns it. *)
Definition boundary_values (values : prescribed) : prescribed := pv_copy values.

(** ** FEBoundaryValues: one boundary point of one cell.
    [f q d]: population q (old time) at degree of freedom d of the cell; [phi], [gphi], [hphi]: shape_value, shape_grad and
    shape_hessian at the point; [n]: m_dofsPerCell; [nu], [dt]: m_data.m_viscosity, m_dt.  The assertions on the sizes hold by
    construction (FEBoundaryValues.h:84-88). *)
Record fe_values := { fe_upToDate : N; fe_rho : R; fe_rho_dof : nat -> R; fe_rho_u : nat -> R; fe_u : nat -> R;
  fe_rho_u_dof : nat -> nat -> R; fe_u_dof : nat -> nat -> R; fe_drhodt : R; fe_dudt : nat -> R }.

Section Values.
  Variables (st : stencil) (nu dt : R) (n : nat) (f : nat -> nat -> R).
  Variables (phi : nat -> R) (gphi : nat -> nat -> R) (hphi : nat -> nat -> nat -> R).

  (** 106-119 setToZero, called by the constructor; the vectors have value-initialised elements. *)
  Definition fe_zero : fe_values :=
    {| fe_upToDate := only_distributions; fe_rho := 0; fe_rho_dof := fun _ => 0; fe_rho_u := fun _ => 0; fe_u := fun _ => 0;
       fe_rho_u_dof := fun _ _ => 0; fe_u_dof := fun _ _ => 0; fe_drhodt := 0; fe_dudt := fun _ => 0 |}.

  Definition positive_data {A} (k : outcome A) : outcome A := if Rlt_dec 0 nu then if Rlt_dec 0 dt then k else Throw else Throw.

  (** 252-277 *)
  Definition calculateRho (x : fe_values) : outcome fe_values :=
    if has boundary_rho (fe_upToDate x) then Throw else positive_data (
    let rho_dof d := sumf (st_Q st) (fun q => f q d) in
    Ok {| fe_upToDate := N.lor (fe_upToDate x) boundary_rho; fe_rho := sumf n (fun d => rho_dof d * phi d); fe_rho_dof := rho_dof;
          fe_rho_u := fe_rho_u x; fe_u := fe_u x; fe_rho_u_dof := fe_rho_u_dof x; fe_u_dof := fe_u_dof x;
          fe_drhodt := fe_drhodt x; fe_dudt := fe_dudt x |}).

  (** 282-320; a density of 0 at a degree of freedom gives no number, and the assertion of 318 fails. *)
  Definition nonzero_densities (rho_dof : nat -> R) : bool :=
    forallb (fun d => if Req_EM_T (rho_dof d) 0 then false else true) (List.seq 0 n).
  Definition calculateU (x : fe_values) : outcome fe_values :=
    if negb (has boundary_rho (fe_upToDate x)) then Throw else if has boundary_u (fe_upToDate x) then Throw else positive_data (
    let rho_u_dof d i := sumf (st_Q st) (fun q => f q d * st_e st q i) in
    let u_dof d i := rho_u_dof d i / fe_rho_dof x d in
    let rho_u i := sumf n (fun d => rho_u_dof d i * phi d) in
    let u i := sumf n (fun d => u_dof d i * phi d) in
    if negb (nonzero_densities (fe_rho_dof x)) then Throw
    else if Rlt_dec (sqrt (sumf (st_D st) (fun i => (u i * fe_rho x - rho_u i) ^ 2))) (1 / 10 ^ 10) then
    Ok {| fe_upToDate := N.lor (fe_upToDate x) boundary_u; fe_rho := fe_rho x; fe_rho_dof := fe_rho_dof x;
          fe_rho_u := rho_u; fe_u := u; fe_rho_u_dof := rho_u_dof; fe_u_dof := u_dof;
          fe_drhodt := fe_drhodt x; fe_dudt := fe_dudt x |}
    else Throw).

  (** 325-342 *)
  Definition calculateDRhoDt (x : fe_values) : outcome fe_values :=
    if has boundary_drho_dt (fe_upToDate x) then Throw else if negb (has boundary_u (fe_upToDate x)) then Throw else
    Ok {| fe_upToDate := N.lor (fe_upToDate x) boundary_drho_dt; fe_rho := fe_rho x; fe_rho_dof := fe_rho_dof x;
          fe_rho_u := fe_rho_u x; fe_u := fe_u x; fe_rho_u_dof := fe_rho_u_dof x; fe_u_dof := fe_u_dof x;
          fe_drhodt := sumf n (fun d => sumf (st_D st) (fun i => gphi d i * fe_rho_u_dof x d i)) * -1; fe_dudt := fe_dudt x |}.

  (** 347-382; m_rho = 0 divides by zero (no number): UB. *)
  Definition calculateDuDt (x : fe_values) : outcome fe_values :=
    if has boundary_du_dt (fe_upToDate x) then Throw else if negb (has boundary_u (fe_upToDate x)) then Throw
    else if negb (has boundary_rho (fe_upToDate x)) then Throw else if Req_EM_T (fe_rho x) 0 then UB else
    let D := st_D st in
    let dudt i :=
      (sumf n (fun d => sumf D (fun k => hphi d k k * fe_u_dof x d i + hphi d i k * fe_u_dof x d k)) * - nu +
       sumf n (fun d => sumf D (fun k => fe_u x k * gphi d k * fe_u_dof x d i) + st_cs2 st / fe_rho x * gphi d i * fe_rho_dof x d)) * -1 in
    Ok {| fe_upToDate := N.lor (fe_upToDate x) boundary_du_dt; fe_rho := fe_rho x; fe_rho_dof := fe_rho_dof x;
          fe_rho_u := fe_rho_u x; fe_u := fe_u x; fe_rho_u_dof := fe_rho_u_dof x; fe_u_dof := fe_u_dof x;
          fe_drhodt := fe_drhodt x; fe_dudt := dudt |}.

  Definition when (b : bool) (g : fe_values -> outcome fe_values) (x : fe_values) : outcome fe_values := if b then g x else Ok x.

  (** 142-164 reinit; [x] is the object before the call. *)
  Definition fe_reinit (flags : N) (x : fe_values) : outcome fe_values :=
    let x := {| fe_upToDate := only_distributions; fe_rho := fe_rho x; fe_rho_dof := fe_rho_dof x; fe_rho_u := fe_rho_u x;
                fe_u := fe_u x; fe_rho_u_dof := fe_rho_u_dof x; fe_u_dof := fe_u_dof x; fe_drhodt := fe_drhodt x; fe_dudt := fe_dudt x |} in
    obind (when (negb (N.eqb flags only_distributions)) calculateRho x) (fun x =>
    obind (when (has boundary_drho_dt flags || has boundary_u flags || has boundary_du_dt flags) calculateU x) (fun x =>
    obind (when (has boundary_drho_dt flags) calculateDRhoDt x) (fun x =>
    obind (when (has boundary_du_dt flags) calculateDuDt x) (fun x =>
    if N.eqb flags (fe_upToDate x) then Ok x else Throw)))).
End Values.
