(** Model of the entropic collision classes /repo/src/library/natrium/collision/KBCStandard,
    KBCCentral and EntropicStabilized and of dataprocessors/PseudoEntropicStabilizer.  [double] is
    [R].  An operation of the C++ that gives no number (infinity or NaN: division by zero, [pow] of
    a base that is not positive) is [UB].  Not modelled: the statistics of gamma, entropy and
    omega2 written to files. *)
From Coq Require Import QArith Qreals.
From Verif Require Import Prelude StencilData StabilizerData ModelStencils ModelConfigNames ModelEquilibria ModelCollision ModelOldCollision.
Local Open Scope R_scope.

Inductive entropic_class := KBCStandard | KBCCentral | EntropicStabilized.

(** CFDSolver.cpp:316-332: the object built from the configuration (constructors MRT.cpp:12-18,
    CollisionModel.h:152-157 as for the other MRT classes). *)
Definition make_entropic (t : StencilType) (s viscosity dt : R) : outcome old_model :=
  obind (calculateRelaxationParameter MRTStandard viscosity dt (stencil_of t s)) (fun tau => Ok (old_new t s tau dt)).

(** ** Equilibria *)

(** [pow(x, y)] for positive x. *)
Definition cpow (x y : R) : outcome R := if Rlt_dec 0 x then Ok (Rpower x y) else UB.

(** KBCStandard.cpp:26-64, the loop over the components p: [value] is multiplied by two factors per
    component. *)
Fixpoint entropic_product (st : stencil) (s : R) (u : nat -> R) (i : nat) (n : nat) (value : R) : outcome R :=
  match n with
  | O => Ok value
  | S p =>
      obind (entropic_product st s u i p value) (fun value =>
      let v := u p / s * sqrt 3 in
      let value := value * (2 - sqrt (1 + v * v)) in
      if Req_EM_T (1 - v / sqrt 3) 0 then UB else
      obind (cpow ((2 * v / sqrt 3 + sqrt (1 + v * v)) / (1 - v / sqrt 3)) (st_e st i p / s)) (fun factor =>
      Ok (value * factor)))
  end.

(** KBCStandard.cpp:26-64 (overrides MRT::getEquilibriumDistribution of the other two classes). *)
Definition entropic_eq (c : entropic_class) (t : StencilType) (s : R) (rho : R) (u : nat -> R) (i : nat) : outcome R :=
  let st := stencil_of t s in
  if eq_asserts rho u then
    match c with
    | KBCStandard => entropic_product st s u i (st_D st) (st_w st i * rho)
    | _ => Ok (old_eq MRTStandard st rho u i)
    end
  else Throw.

(** ** The relaxation of the KBC models *)

(** KBCStandard.cpp:391-421, 936-980, KBCCentral.cpp:374-404: entropic scalar product. *)
Definition entropic_sum (Q : nat) (feq x y : nat -> R) : R := sumf Q (fun i => x i * y i / feq i).

(** KBCStandard.cpp:423-433, 982-991, KBCCentral.cpp:406-416. *)
Definition kbc_beta (tau : R) : R := 1 / (tau + 1/2) / 2.
Definition kbc_gamma (beta sum_s sum_h : R) : R :=
  if Rlt_dec sum_h (1 / 10^16) then 2 else 1 / beta - (2 - 1 / beta) * (sum_s / sum_h).

(** No population of the equilibrium is zero (every one is divided by). *)
Fixpoint nonzero (n : nat) (f : nat -> R) : bool :=
  match n with
  | O => true
  | S k => if Req_EM_T (f k) 0 then false else nonzero k f
  end.

(** KBCStandard.cpp:232-240, 350-491 (D2Q9), 713-727, 887-1023 (D3Q15), KBCCentral.cpp:193-204,
    332-474: from the kinematic part [k], the shear part [shear] (a function of the populations)
    and the equilibrium to the new populations. *)
Definition kbc_relax (Q : nat) (tau : R) (k : nat -> R) (shear : (nat -> R) -> nat -> R) (f feq : nat -> R) : outcome (nat -> R) :=
  let s := shear f in
  let h i := f i - k i - s i in
  let seq := shear feq in
  let heq i := feq i - k i - seq i in
  let delta_s i := s i - seq i in
  let delta_h i := h i - heq i in
  if nonzero Q feq then
    let sum_s := entropic_sum Q feq delta_s delta_h in
    let sum_h := entropic_sum Q feq delta_h delta_h in
    let beta := kbc_beta tau in
    let gamma := kbc_gamma beta sum_s sum_h in
    Ok (fun i => f i - beta * (2 * delta_s i + gamma * delta_h i))
  else UB.

(** ** KBCStandard, D2Q9 *)

(** KBCStandard.cpp:139-153, 179-192 and 273-287, 301-309 (KBC_C is defined): T, N, Pi_xy of the
    populations and the shear part.  Q_xyy, Q_yxx and A are computed and not used. *)
Definition shear_D2Q9 (rho : R) (f : nat -> R) : nat -> R :=
  let T := (f 1%nat + f 2%nat + f 3%nat + f 4%nat + 2 * (f 5%nat + f 6%nat + f 7%nat + f 8%nat)) / rho in
  let N := (f 1%nat - f 2%nat + f 3%nat - f 4%nat) / rho in
  let Pi_xy := (f 5%nat - f 6%nat + f 7%nat - f 8%nat) / rho in
  vec [ - rho * T;
        1/2 * rho * (1/2) * (T + N); 1/2 * rho * (1/2) * (T - N);
        1/2 * rho * (1/2) * (T + N); 1/2 * rho * (1/2) * (T - N);
        1/4 * rho * Pi_xy; 1/4 * rho * - Pi_xy; 1/4 * rho * Pi_xy; 1/4 * rho * - Pi_xy ].

(** KBCStandard.cpp:166-177. *)
Definition kinematic_D2Q9 (rho ux uy : R) : nat -> R :=
  vec [ rho; 1/2 * rho * ux; 1/2 * rho * uy; 1/2 * rho * - ux; 1/2 * rho * - uy; 0; 0; 0; 0 ].

(** KBCStandard.cpp:247-271. *)
Definition entropic_D2Q9 (rho ux uy : R) : nat -> R :=
  let u_x_i := ux * sqrt 3 in let u_y_i := uy * sqrt 3 in
  let sqrt_ux := sqrt (1 + u_x_i * u_x_i) in let sqrt_uy := sqrt (1 + u_y_i * u_y_i) in
  let prefactor := rho * (2 - sqrt_ux) * (2 - sqrt_uy) in
  let px := (2 * u_x_i / sqrt 3 + sqrt_ux) / (1 - u_x_i / sqrt 3) in
  let py := (2 * u_y_i / sqrt 3 + sqrt_uy) / (1 - u_y_i / sqrt 3) in
  vec [ 4/9 * prefactor;
        1/9 * prefactor * px; 1/9 * prefactor * py; 1/9 * prefactor / px; 1/9 * prefactor / py;
        1/36 * prefactor * px * py; 1/36 * prefactor / px * py; 1/36 * prefactor / px / py; 1/36 * prefactor * px / py ].

(** ** KBCStandard, D3Q15 *)

(** KBCStandard.cpp:593-639, 663-678 and 785-852.  Only T, N_xz, N_yz and Q_xyz enter the
    shear part. *)
Definition shear_D3Q15 (rho : R) (f : nat -> R) : nat -> R :=
  let T := (f 1%nat + f 2%nat + f 3%nat + f 4%nat + f 5%nat + f 6%nat + 3 * f 7%nat + 3 * f 8%nat + 3 * f 9%nat
            + 3 * f 10%nat + 3 * f 11%nat + 3 * f 12%nat + 3 * f 13%nat + 3 * f 14%nat) / rho in
  let N_xz := (f 1%nat + f 2%nat - f 5%nat - f 6%nat) / rho in
  let N_yz := (f 3%nat + f 4%nat - f 5%nat - f 6%nat) / rho in
  let Q_xyz := (f 7%nat - f 8%nat - f 9%nat + f 10%nat - f 11%nat + f 12%nat + f 13%nat - f 14%nat) / rho in
  let s1 := 1/6 * rho * (2 * N_xz - N_yz + T) in
  let s3 := 1/6 * rho * (- N_xz + 2 * N_yz + T) in
  let s5 := 1/6 * rho * (- N_xz - N_yz + T) in
  let s7 := 1/8 * rho * Q_xyz in
  vec [ rho * - T; s1; s1; s3; s3; s5; s5; s7; - s7; - s7; s7; - s7; s7; s7; - s7 ].

(** KBCStandard.cpp:646-661. *)
Definition kinematic_D3Q15 (rho ux uy uz : R) : nat -> R :=
  vec [ rho; rho / 6 * (3 * ux); rho / 6 * (3 * - ux); rho / 6 * (3 * uy); rho / 6 * (3 * - uy);
        rho / 6 * (3 * uz); rho / 6 * (3 * - uz); 0; 0; 0; 0; 0; 0; 0; 0 ].

(** ** KBCCentral *)

(** KBCCentral.cpp:88-106, 247-263: central moments; directions and velocity in lattice units. *)
Definition central_moment (s ux uy : R) (f : nat -> R) (p q : nat) : R :=
  sumf 9 (fun j => (st_e (D2Q9 s) j 0 / s - ux) ^ p * (st_e (D2Q9 s) j 1 / s - uy) ^ q * f j).

(** KBCCentral.cpp:111-121, 147-191 and 265-275, 288-330. *)
Definition shear_central (s rho ux uy : R) (f : nat -> R) : nat -> R :=
  let m := central_moment s ux uy f in
  let T := (m 2%nat 0%nat + m 0%nat 2%nat) / rho in
  let N := (m 2%nat 0%nat - m 0%nat 2%nat) / rho in
  let Pi_xy := m 1%nat 1%nat / rho in
  let sp := ux * ux + uy * uy in
  vec [ rho * (4 * ux * uy * Pi_xy - 1/2 * (ux * ux - uy * uy) * N + 1/2 * (sp - 2) * T);
        1/2 * rho * (1/2 * (1 + 1 * ux + ux * ux - uy * uy) * N - (2 * 1 * uy + 4 * ux * uy) * Pi_xy + 1/2 * (1 - 1 * ux - sp) * T);
        1/2 * rho * (1/2 * (-1 - 1 * uy + ux * ux - uy * uy) * N - (2 * 1 * ux + 4 * ux * uy) * Pi_xy + 1/2 * (1 - 1 * uy - sp) * T);
        1/2 * rho * (1/2 * (1 - 1 * ux + ux * ux - uy * uy) * N - (2 * -1 * uy + 4 * ux * uy) * Pi_xy + 1/2 * (1 + 1 * ux - sp) * T);
        1/2 * rho * (1/2 * (-1 + 1 * uy + ux * ux - uy * uy) * N - (2 * -1 * ux + 4 * ux * uy) * Pi_xy + 1/2 * (1 + 1 * uy - sp) * T);
        1/4 * rho * ((4 * ux * uy + 1 * 1 + 2 * 1 * uy + 2 * 1 * ux) * Pi_xy + 1/2 * (- ux * ux + uy * uy - 1 * ux + 1 * uy) * N + 1/2 * (sp + 1 * ux + 1 * uy) * T);
        1/4 * rho * ((4 * ux * uy + -1 * 1 + 2 * -1 * uy + 2 * 1 * ux) * Pi_xy + 1/2 * (- ux * ux + uy * uy + 1 * ux + 1 * uy) * N + 1/2 * (sp + -1 * ux + 1 * uy) * T);
        1/4 * rho * ((4 * ux * uy + -1 * -1 + 2 * -1 * uy + 2 * -1 * ux) * Pi_xy + 1/2 * (- ux * ux + uy * uy + 1 * ux - 1 * uy) * N + 1/2 * (sp + -1 * ux - 1 * uy) * T);
        1/4 * rho * ((4 * ux * uy + 1 * -1 + 2 * 1 * uy + 2 * -1 * ux) * Pi_xy + 1/2 * (- ux * ux + uy * uy - 1 * ux - 1 * uy) * N + 1/2 * (sp + 1 * ux - 1 * uy) * T) ].

(** KBCCentral.cpp:134-145. *)
Definition kinematic_central (rho ux uy : R) : nat -> R :=
  vec [ rho * (1 - (ux * ux + uy * uy));
        1/2 * rho * (ux * ux + 1 * ux); 1/2 * rho * (uy * uy + 1 * uy);
        1/2 * rho * (ux * ux - 1 * ux); 1/2 * rho * (uy * uy - 1 * uy);
        1/4 * rho * (1 * 1) * ux * uy; 1/4 * rho * (1 * -1) * ux * uy;
        1/4 * rho * (-1 * -1) * ux * uy; 1/4 * rho * (-1 * 1) * ux * uy ].

(** ** One node of the KBC classes *)
Section Node.
  Variables (m : old_model) (init : bool).
  Let s := om_s m.

  (** KBCStandard.cpp:92-497. *)
  Definition node_kbc_D2Q9 (f u : nat -> R) : outcome node_out :=
    let rho := sumf 9 f in
    checked rho (
    let v := if init then u else raw_D2Q9 s rho f in
    let ux := v 0%nat / s in let uy := v 1%nat / s in
    obind (kbc_relax 9 (om_tau m) (kinematic_D2Q9 rho ux uy) (shear_D2Q9 rho) f (entropic_D2Q9 rho ux uy)) (fun f' =>
    Ok {| no_f := f'; no_rho := rho; no_u := v |})).

  (** KBCStandard.cpp:499-1026.  The square term of the equilibrium (730-784, [feq_D3Q15] as in
      BGKStandard) divides the lattice velocity by the speed of sound of the scaled stencil. *)
  Definition node_kbc_D3Q15 (f u : nat -> R) : outcome node_out :=
    let rho := sumf 15 f in
    let cs2 := st_cs2 (D3Q15 s) in
    checked rho (
    let v := if init then u else raw_D3Q15 s rho f in
    let ux := v 0%nat / s in let uy := v 1%nat / s in let uz := v 2%nat / s in
    let q := - (ux * ux + uy * uy + uz * uz) / (2 * cs2) in
    obind (kbc_relax 15 (om_tau m) (kinematic_D3Q15 rho ux uy uz) (shear_D3Q15 rho) f (feq_D3Q15 q (s / cs2) rho v)) (fun f' =>
    Ok {| no_f := f'; no_rho := rho; no_u := v |})).

  (** KBCCentral.cpp:40-484. *)
  Definition node_kbc_central (f u : nat -> R) : outcome node_out :=
    let rho := sumf 9 f in
    let cs2 := st_cs2 (D2Q9 s) / (s * s) in
    checked rho (
    let v := if init then u else raw_D2Q9 s rho f in
    let ux := v 0%nat / s in let uy := v 1%nat / s in
    let feq := feq_D2Q9 (1/2) (- (ux * ux + uy * uy) / (2 * cs2)) (1 / cs2) rho (vec [ux; uy]) in
    obind (kbc_relax 9 (om_tau m) (kinematic_central rho ux uy) (shear_central s rho ux uy) f feq) (fun f' =>
    Ok {| no_f := f'; no_rho := rho; no_u := v |})).
End Node.

(** ** Pseudo-entropic stabilizer *)

(** PseudoEntropicStabilizer.cpp:24-131: the matrices.  [n[i][j] / d[i][j]] for D2Q9. *)
Inductive stab_kind := Stab_D2Q9 | Stab_D2Q9_with_e | Stab_D3Q19.
Definition stab_size (k : stab_kind) : nat := match k with Stab_D3Q19 => 19 | _ => 9 end.
Definition stab_entry (k : stab_kind) (i j : nat) : R :=
  match k with
  | Stab_D2Q9 => matR stab_n i j / matR stab_d i j
  | Stab_D2Q9_with_e => matR stab_nd_d2q9_with_e i j
  | Stab_D3Q19 => matR stab_nd_d3q19 i j
  end.

(** PseudoEntropicStabilizer.cpp:288-310 (applyStabilizer<9>, <19>) and the loop bodies of
    133-262. *)
Definition stabilize (k : stab_kind) (f : nat -> R) (i : nat) : R :=
  sumf (stab_size k) (fun j => stab_entry k i j * f j).

(** PseudoEntropicStabilizer.cpp:264-284: which matrix; every other stencil is left alone. *)
Definition stab_of (t : StencilType) (with_e : bool) : option stab_kind :=
  match t with
  | Stencil_D2Q9 => Some (if with_e then Stab_D2Q9_with_e else Stab_D2Q9)
  | Stencil_D3Q19 => Some Stab_D3Q19
  | _ => None
  end.

(** apply(): the owned degrees of freedom, one after the other.  The ghost values are those of the
    owners (updateGhosted). *)
Fixpoint stab_nodes (k : stab_kind) (nodes : list nat) (f : nat -> nat -> R) : nat -> nat -> R :=
  match nodes with
  | [] => f
  | n :: rest => stab_nodes k rest (upd f n (fun i => if Nat.ltb i (stab_size k) then stabilize k (f n) i else f n i))
  end.
Definition stab_apply (t : StencilType) (with_e : bool) (nodes : list nat) (f : nat -> nat -> R) : nat -> nat -> R :=
  match stab_of t with_e with Some k => stab_nodes k nodes f | None => f end.

(** CFDSolver.cpp:606-621: the data processor for the configured scheme; the argument is [with_e].
    No processor exists for the other names. *)
Definition regularizer (r : RegularizationSchemeName) : option bool :=
  match r with
  | PSEUDO_ENTROPY_MAXIMIZATION => Some false
  | PSEUDO_ENTROPY_MAXIMIZATION_WITH_E => Some true
  | _ => None
  end.
Definition regularize (r : RegularizationSchemeName) (t : StencilType) (nodes : list nat) (f : nat -> nat -> R) : nat -> nat -> R :=
  match regularizer r with Some with_e => stab_apply t with_e nodes f | None => f end.

(** ** EntropicStabilized *)

(** EntropicStabilized.cpp:262-273 (entropy); the populations are asserted to be positive. *)
Definition positive (Q : nat) (f : nat -> R) : bool :=
  (fix go n := match n with O => true | S k => if Rlt_dec 0 (f k) then go k else false end) Q.
Definition entropy (Q : nat) (w f : nat -> R) : outcome R :=
  if positive Q f then Ok (- sumf Q (fun i => f i * ln (f i / w i))) else Throw.

(** EntropicStabilized.cpp:279-290 (entropyDerivative). *)
Definition entropyDerivative (Q : nat) (w f direction : nat -> R) : outcome R :=
  if positive Q f then Ok (- sumf Q (fun i => direction i * (ln (f i / w i) + w i))) else Throw.

(** EntropicStabilized.cpp:157-177: all four populations above 1e-11 in every direction. *)
Definition above (Q : nat) (f : nat -> R) : bool :=
  (fix go n := match n with O => true | S k => if Rlt_dec (1 / 10^11) (f k) then go k else false end) Q.

(** EntropicStabilized.cpp:298-320 (collideBGK): the equilibrium. *)
Definition est_feq (st : stencil) (rho : R) (u : nat -> R) (i : nat) : R :=
  let uu_term := sumf (st_D st) (fun j => - (u j * u j) / (2 * st_cs2 st)) in
  let ue_term := sumf (st_D st) (fun j => u j * st_e st i j / st_cs2 st) in
  st_w st i * rho * (1 + ue_term * (1 + 1/2 * ue_term) + uu_term).

(** EntropicStabilized.cpp:188-215: omega2.  [abs] is taken to be the one of double. *)
Definition est_omega2 (Q : nat) (w f reg post direction : nat -> R) : outcome R :=
  obind (entropy Q w f) (fun kld_pre =>
  obind (entropy Q w reg) (fun kld_post_reg =>
  obind (entropy Q w post) (fun kld_post =>
  obind (entropyDerivative Q w reg direction) (fun derivative =>
  if Rlt_dec (1 / 10^10) (Rabs kld_pre) then
    if Rlt_dec (1 / 10^10) (Rabs (kld_post_reg - kld_post)) then
      if Req_EM_T derivative 0 then UB else Ok ((kld_pre - kld_post_reg) / derivative)
    else Ok 0
  else Ok 0)))).

(** EntropicStabilized.cpp:140-232 (collideOne); [tau] is the relaxation parameter plus 0.5.  The
    mirror state is the BGK collision with relaxation time 0.5. *)
Definition collideOne (st : stencil) (k : stab_kind) (tau rho : R) (u f : nat -> R) : outcome (nat -> R) :=
  let Q := st_Q st in
  let feq := est_feq st rho u in
  let post i := f i - 1 / (1/2) * (f i - feq i) in
  let reg := stabilize k post in
  if above Q reg && above Q post && above Q feq && above Q f then
    let direction i := reg i - feq i in
    obind (est_omega2 Q (st_w st) f reg post direction) (fun omega2 =>
    Ok (fun i => feq i + (1 / tau - 1) * (reg i + omega2 * direction i - feq i)))
  else
    Ok (fun i => feq i + (1 / tau - 1) * (reg i - feq i)).

(** EntropicStabilized.cpp:30-60: dispatch on the number of directions; EntropicStabilized.h:36-48:
    the dimension is asserted; applyStabilizer<27> (PseudoEntropicStabilizer.cpp:312-317) asserts
    false, so the collision fails for the first node. *)
Definition est_kind (t : StencilType) : option stab_kind :=
  match t with
  | Stencil_D2Q9 => Some Stab_D2Q9
  | Stencil_D3Q19 => Some Stab_D3Q19
  | _ => None
  end.

(** EntropicStabilized.cpp:62-118 (collide), one node. *)
Definition node_est (m : old_model) (init : bool) (f u : nat -> R) : outcome node_out :=
  let st := stencil_of (om_t m) (om_s m) in
  match est_kind (om_t m) with
  | Some k =>
      let rho := sumf (st_Q st) f in
      if Rlt_dec rho (1 / 10^12) then Throw else
      let v := if init then u else fun j => sumf (st_Q st) (fun i => f i * st_e st i j) / rho in
      obind (collideOne st k (om_tau m + 1/2) rho v f) (fun f' =>
      Ok {| no_f := f'; no_rho := rho; no_u := v |})
  | None => Throw
  end.

(** ** The loops *)
Definition entropic_node (c : entropic_class) (m : old_model) (init : bool) (f u : nat -> R) : outcome node_out :=
  match c, om_t m with
  | KBCStandard, Stencil_D2Q9 => node_kbc_D2Q9 m init f u
  | KBCStandard, Stencil_D3Q15 => node_kbc_D3Q15 m init f u
  | KBCCentral, Stencil_D2Q9 => node_kbc_central m init f u
  | EntropicStabilized, _ => node_est m init f u
  | _, _ => Throw
  end.

(** Dispatch before the loop: KBCStandard.cpp:66-90, KBCCentral.cpp:23-38, EntropicStabilized.cpp:
    45-58 with the assertion of the dimension (only the two-dimensional stencils with 19 directions
    fail there). *)
Definition entropic_accepts (c : entropic_class) (t : StencilType) : bool :=
  match c, t with
  | KBCStandard, (Stencil_D2Q9 | Stencil_D3Q15) => true
  | KBCCentral, Stencil_D2Q9 => true
  | EntropicStabilized, (Stencil_D2Q9 | Stencil_D3Q19 | Stencil_D3Q27 | Stencil_RD3Q27 | Stencil_D3V27) => true
  | _, _ => false
  end.

Fixpoint entropic_loop (c : entropic_class) (m : old_model) (init : bool) (nodes : list nat) (x : fields) : outcome fields :=
  match nodes with
  | [] => Ok x
  | n :: rest =>
      obind (entropic_node c m init (fl_f x n) (fl_u x n)) (fun o =>
      entropic_loop c m init rest
        {| fl_f := upd (fl_f x) n (no_f o); fl_rho := upd (fl_rho x) n (no_rho o); fl_u := upd (fl_u x) n (no_u o) |})
  end.
Definition entropic_collideAll (c : entropic_class) (m : old_model) (init : bool) (nodes : list nat) (x : fields) : outcome fields :=
  if entropic_accepts c (om_t m) then entropic_loop c m init nodes x else Throw.
