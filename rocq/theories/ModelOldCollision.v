(** Model of /repo/src/library/natrium/collision: CollisionModel, BGK, BGKStandard,
    BGKSteadyState, BGKStandardTransformed, BGKIncompressible, BGKRegularized, MRT, MRTStandard,
    MRTEntropic and ExternalForceFunctions, the collision objects CFDSolver holds as
    m_collisionModel and uses for the initialisation; and the initialisation itself
    (CFDSolver::initializeDistributions).  [double] is [R]; sums written out in the C++ are
    [sumf]; a failed assertion is [Throw].  Dividing by a density that may be zero (MRT classes,
    which do not check it) gives [UB]: no number. *)
From Coq Require Import QArith Qreals.
From Verif Require Import Prelude StencilData MRTEntropicData ModelStencils ModelConfigNames ModelEquilibria ModelCollision.
Local Open Scope R_scope.

(** ** Objects *)

(** The classes, with the extra member of BGKSteadyState (m_gamma). *)
Inductive old_class :=
| BGKStandard | BGKSteadyState (gamma : R) | BGKStandardTransformed | BGKIncompressible | BGKRegularized
| MRTStandard | MRTEntropic.

(** BGK.h:30-38, MRT.h:20-28 (m_relaxationParameter, m_prefactor, m_dt) and CollisionModel.h:35-70
    (stencil, force type and force). *)
Record old_model := {
  om_t : StencilType; om_s : R;
  om_tau : R; om_prefactor : R; om_dt : R;
  om_forceType : ForceType; om_F : nat -> R }.

(** BGK.cpp:14-18, MRT.cpp:12-18: constructor (and CollisionModel.h:61-70: no force). *)
Definition old_new (t : StencilType) (s tau dt : R) : old_model :=
  {| om_t := t; om_s := s; om_tau := tau; om_prefactor := - 1 / (tau + 1/2); om_dt := dt;
     om_forceType := NO_FORCING; om_F := fun _ => 0 |}.

(** CollisionModel.h:152-157, BGKSteadyState.h:80-86 (divides by gamma as well). *)
Definition calculateRelaxationParameter (c : old_class) (viscosity dt : R) (st : stencil) : outcome R :=
  if Rlt_dec 0 viscosity then
    if Rlt_dec 0 dt then
      Ok (match c with
          | BGKSteadyState gamma => viscosity / (dt * st_cs2 st * gamma)
          | _ => viscosity / (dt * st_cs2 st)
          end)
    else Throw
  else Throw.

(** CFDSolver.cpp:258-347: the object built from the configuration; BGKSteadyState.cpp:16-23
    asserts 0 < gamma <= 1. *)
Definition make_old (c : old_class) (t : StencilType) (s viscosity dt : R) : outcome old_model :=
  obind (calculateRelaxationParameter c viscosity dt (stencil_of t s)) (fun tau =>
  match c with
  | BGKSteadyState gamma =>
      if Rlt_dec 0 gamma then if Rle_dec gamma 1 then Ok (old_new t s tau dt) else Throw else Throw
  | _ => Ok (old_new t s tau dt)
  end).

(** CFDSolver.cpp:350-359 (setForceType, setExternalForce). *)
Definition with_force (m : old_model) (ft : ForceType) (F : nat -> R) : old_model :=
  {| om_t := om_t m; om_s := om_s m; om_tau := om_tau m; om_prefactor := om_prefactor m; om_dt := om_dt m;
     om_forceType := ft; om_F := F |}.

(** BGK.h:105-112, MRT.h:40-47 (setTimeStep). *)
Definition setTimeStep (m : old_model) (dt : R) : outcome old_model :=
  if Rlt_dec 0 dt then
    let tau_times_dt := om_dt m * om_tau m in
    let tau := tau_times_dt / dt in
    Ok {| om_t := om_t m; om_s := om_s m; om_tau := tau; om_prefactor := - 1 / (tau + 1/2); om_dt := dt;
          om_forceType := om_forceType m; om_F := om_F m |}
  else Throw.

(** BGK.h:89-94, MRT.h:54-60 (setRelaxationParameter). *)
Definition setRelaxationParameter (m : old_model) (tau dt : R) : outcome old_model :=
  if Rlt_dec 0 tau then
    Ok {| om_t := om_t m; om_s := om_s m; om_tau := tau; om_prefactor := - 1 / (tau + 1/2); om_dt := dt;
          om_forceType := om_forceType m; om_F := om_F m |}
  else Throw.

(** BGK.h:129-131 (getLambda). *)
Definition getLambda (m : old_model) : R := om_tau m * st_cs2 (stencil_of (om_t m) (om_s m)) * om_dt m.

(** ** Equilibria *)

(** u * u and u * e_i (numeric_vector::operator* and Math::scalar_product). *)
Definition sp (D : nat) (x y : nat -> R) : R := sumf D (fun j => x j * y j).

(** BGKStandardTransformed.cpp:15-17: m_rho0. *)
Definition rho0 : R := 1.

(** BGKStandard.cpp:23-42, BGKRegularized.cpp:21-39, BGKIncompressible.cpp:20-38, MRT.cpp:24-44,
    BGKSteadyState.cpp:28-48, BGKStandardTransformed.cpp:23-43: getEquilibriumDistribution
    without its assertions. *)
Definition old_eq (c : old_class) (st : stencil) (rho : R) (u : nat -> R) (i : nat) : R :=
  let prefactor := st_w st i * rho in
  let uSquareTerm := - sp (st_D st) u u / (2 * st_cs2 st) in
  let mixedTerm := sp (st_D st) u (st_e st i) / st_cs2 st in
  match c with
  | BGKSteadyState gamma =>
      match i with
      | O => prefactor * (1 + 1 / gamma * uSquareTerm)
      | _ => prefactor * (1 + mixedTerm * (1 + 1/2 / gamma * mixedTerm) + 1 / gamma * uSquareTerm)
      end
  | BGKStandardTransformed =>
      match i with
      | O => prefactor * (1 + uSquareTerm) - st_w st i * rho0
      | _ => prefactor * (1 + mixedTerm * (1 + 1/2 * mixedTerm) + uSquareTerm) - st_w st i * rho0
      end
  | _ =>
      match i with
      | O => prefactor * (1 + uSquareTerm)
      | _ => prefactor * (1 + mixedTerm * (1 + 1/2 * mixedTerm) + uSquareTerm)
      end
  end.

(** The assertions: rho > 0, u(0) < 1e15, u(1) < 1e15. *)
Definition eq_asserts (rho : R) (u : nat -> R) : bool :=
  if Rlt_dec 0 rho then
    if Rlt_dec (u 0%nat) (10^15) then if Rlt_dec (u 1%nat) (10^15) then true else false else false
  else false.

(** CollisionModel.cpp:14-20 (getEquilibriumDistributions). *)
Definition getEquilibriumDistributions (c : old_class) (st : stencil) (rho : R) (u : nat -> R)
  : outcome (nat -> R) :=
  if eq_asserts rho u then Ok (old_eq c st rho u) else Throw.

(** ** Equilibria of the written-out collisions *)

Definition vec (l : list R) (i : nat) : R := nth i l 0.

(** The two patterns weighting * (1 + m (1 + 0.5 m) + q) and weighting * (1 - m (1 - 0.5 m) + q);
    [h] is 0.5 or one_by_2gamma. *)
Definition plus (h q w m : R) : R := w * (1 + m * (1 + h * m) + q).
Definition minus (h q w m : R) : R := w * (1 - m * (1 - h * m) + q).

(** BGKStandard.cpp:174-203 and BGKRegularized.cpp:130-159 (h = 0.5, q = uSquareTerm);
    BGKSteadyState.cpp:115-145 (h = one_by_2gamma, q = one_by_2gamma * uSquareTerm).
    [p] is prefactor = scaling / cs2. *)
Definition feq_D2Q9 (h q p rho : R) (u : nat -> R) : nat -> R :=
  let u0 := u 0%nat in let u1 := u 1%nat in
  let w0 := 4/9 * rho in let w1 := 1/9 * rho in let w2 := 1/36 * rho in
  vec [ w0 * (1 + q);
        plus h q w1 (p * u0); plus h q w1 (p * u1); minus h q w1 (p * u0); minus h q w1 (p * u1);
        plus h q w2 (p * (u0 + u1)); plus h q w2 (p * (- u0 + u1));
        minus h q w2 (p * (u0 + u1)); minus h q w2 (p * (- u0 + u1)) ].

(** BGKStandard.cpp:387-441, BGKRegularized.cpp:372-426. *)
Definition feq_D3Q19 (q p rho : R) (u : nat -> R) : nat -> R :=
  let h := 1/2 in
  let u0 := u 0%nat in let u1 := u 1%nat in let u2 := u 2%nat in
  let w0 := 1/3 * rho in let w1 := 1/18 * rho in let w2 := 1/36 * rho in
  vec [ w0 * (1 + q);
        plus h q w1 (p * u0); plus h q w1 (p * u2); minus h q w1 (p * u0); minus h q w1 (p * u2);
        minus h q w1 (p * u1); plus h q w1 (p * u1);
        plus h q w2 (p * (u0 + u2)); plus h q w2 (p * (- u0 + u2));
        minus h q w2 (p * (u0 + u2)); minus h q w2 (p * (- u0 + u2));
        minus h q w2 (p * (- u0 + u1)); plus h q w2 (p * (u0 + u1));
        plus h q w2 (p * (- u0 + u1)); minus h q w2 (p * (u0 + u1));
        plus h q w2 (p * (- u1 + u2)); plus h q w2 (p * (u1 + u2));
        minus h q w2 (p * (- u1 + u2)); minus h q w2 (p * (u1 + u2)) ].

(** BGKStandard.cpp:588-632. *)
Definition feq_D3Q15 (q p rho : R) (u : nat -> R) : nat -> R :=
  let h := 1/2 in
  let u0 := u 0%nat in let u1 := u 1%nat in let u2 := u 2%nat in
  let w0 := 2/9 * rho in let w1 := 1/9 * rho in let w2 := 1/72 * rho in
  vec [ w0 * (1 + q);
        plus h q w1 (p * u0); minus h q w1 (p * u0); plus h q w1 (p * u1); minus h q w1 (p * u1);
        plus h q w1 (p * u2); minus h q w1 (p * u2);
        plus h q w2 (p * (u0 + u1 + u2)); minus h q w2 (p * (u0 + u1 + u2));
        plus h q w2 (p * (u0 + u1 - u2)); minus h q w2 (p * (u0 + u1 - u2));
        plus h q w2 (p * (u0 - u1 + u2)); minus h q w2 (p * (u0 - u1 + u2));
        plus h q w2 (p * (u0 - u1 - u2)); minus h q w2 (p * (u0 - u1 - u2)) ].

(** BGKStandardTransformed.cpp:113-148: the same, every entry minus w_i rho0. *)
Definition feq_transformed (q p rho : R) (u : nat -> R) : nat -> R :=
  let u0 := u 0%nat in let u1 := u 1%nat in
  let h := 1/2 in
  let w0 := 4/9 in let w1 := 1/9 in let w2 := 1/36 in
  vec [ w0 * rho * (1 + q) - w0 * rho0;
        plus h q (w1 * rho) (p * u0) - w1 * rho0; plus h q (w1 * rho) (p * u1) - w1 * rho0;
        minus h q (w1 * rho) (p * u0) - w1 * rho0; minus h q (w1 * rho) (p * u1) - w1 * rho0;
        plus h q (w2 * rho) (p * (u0 + u1)) - w2 * rho0; plus h q (w2 * rho) (p * (- u0 + u1)) - w2 * rho0;
        minus h q (w2 * rho) (p * (u0 + u1)) - w2 * rho0; minus h q (w2 * rho) (p * (- u0 + u1)) - w2 * rho0 ].

(** BGKIncompressible.h:22-23 and BGKIncompressible.cpp:129-175.  The weighting of directions
    1-4 has no density, that of directions 5-8 has. *)
Definition feq_incompressible (q p rho : R) (u : nat -> R) : nat -> R :=
  let lambda := 1/3 in let gamma := 1/12 in let sigma := lambda + gamma in
  let u0 := u 0%nat in let u1 := u 1%nat in
  let h := 1/2 in
  let w0 := 4/9 in let w1 := 1/9 in let w2 := 1/36 * rho in
  vec [ - 4 * sigma * rho + w0 * (1 + q);
        lambda * rho + plus h q w1 (p * u0); lambda * rho + plus h q w1 (p * u1);
        lambda * rho + minus h q w1 (p * u0); lambda * rho + minus h q w1 (p * u1);
        gamma * rho + plus h q w2 (p * (u0 + u1)); gamma * rho + plus h q w2 (p * (- u0 + u1));
        gamma * rho + minus h q w2 (p * (u0 + u1)); gamma * rho + minus h q w2 (p * (- u0 + u1)) ].

(** ** Velocities *)

(** The written-out sums of the populations: D2Q9 (BGKStandard.cpp:146-150 and the other D2Q9
    classes), D3Q19 (BGKStandard.cpp:346-356, BGKRegularized.cpp:335-345), D3Q15
    (BGKStandard.cpp:568-578). *)
Definition raw_D2Q9 (s rho : R) (f : nat -> R) : nat -> R :=
  vec [ s / rho * (f 1%nat + f 5%nat + f 8%nat - f 3%nat - f 6%nat - f 7%nat);
        s / rho * (f 2%nat + f 5%nat + f 6%nat - f 4%nat - f 7%nat - f 8%nat) ].
Definition raw_D3Q19 (s rho : R) (f : nat -> R) : nat -> R :=
  vec [ s / rho * (f 1%nat - f 3%nat + f 7%nat - f 8%nat - f 9%nat + f 10%nat + f 11%nat + f 12%nat - f 13%nat - f 14%nat);
        s / rho * (- f 5%nat + f 6%nat - f 11%nat + f 12%nat + f 13%nat - f 14%nat - f 15%nat + f 16%nat + f 17%nat - f 18%nat);
        s / rho * (f 2%nat - f 4%nat + f 7%nat + f 8%nat - f 9%nat - f 10%nat + f 15%nat + f 16%nat - f 17%nat - f 18%nat) ].
Definition raw_D3Q15 (s rho : R) (f : nat -> R) : nat -> R :=
  vec [ s / rho * (f 1%nat - f 2%nat + f 7%nat - f 8%nat + f 9%nat - f 10%nat + f 11%nat - f 12%nat + f 13%nat - f 14%nat);
        s / rho * (f 3%nat - f 4%nat + f 7%nat - f 8%nat + f 9%nat - f 10%nat - f 11%nat + f 12%nat - f 13%nat + f 14%nat);
        s / rho * (f 5%nat - f 6%nat + f 7%nat - f 8%nat - f 9%nat + f 10%nat + f 11%nat - f 12%nat - f 13%nat + f 14%nat) ].
(** BGK.cpp:88-98. *)
Definition raw_generic (st : stencil) (rho : R) (f : nat -> R) (j : nat) : R :=
  sumf (st_Q st) (fun k => f k * st_e st k j) / rho.

(** BGKStandard.cpp:152-172 and 357-385, BGKRegularized.cpp:346-369: stored velocity and the
    velocity of the equilibrium (outside the initialisation). *)
Definition force_velocities (m : old_model) (rho : R) (raw : nat -> R) : (nat -> R) * (nat -> R) :=
  let half j := raw j + 1/2 * om_dt m * om_F m j / rho in
  match om_forceType m with
  | NO_FORCING => (raw, raw)
  | SHIFTING_VELOCITY => (half, fun j => raw j - 1 / om_prefactor m * om_dt m * om_F m j / rho)
  | EXACT_DIFFERENCE => (half, raw)
  | GUO => (half, half)
  end.

(** ** Forces (ExternalForceFunctions.h) *)

Definition edm (sign : bool) (sqs sqe w ms me : R) : R :=
  if sign then plus (1/2) sqs w ms - plus (1/2) sqe w me
  else minus (1/2) sqs w ms - minus (1/2) sqe w me.

(** ExternalForceFunctions.h:19-117 (applyExactDifferenceForcingD2Q9): the source term s_i. *)
Definition edm_D2Q9 (F u : nat -> R) (rho dt p : R) : nat -> R :=
  let v j := u j + F j * dt / rho in
  let sqs := - (1/2) * p * (v 0%nat * v 0%nat + v 1%nat * v 1%nat) in
  let sqe := - (1/2) * p * (u 0%nat * u 0%nat + u 1%nat * u 1%nat) in
  let w0 := 4/9 * rho in let w1 := 1/9 * rho in let w2 := 1/36 * rho in
  let x z := z 0%nat : R in let y z := z 1%nat : R in
  let pm sign w l := edm sign sqs sqe w (p * l v) (p * l u) in
  vec [ w0 * (1 + sqs) - w0 * (1 + sqe);
        pm true w1 x; pm true w1 y; pm false w1 x; pm false w1 y;
        pm true w2 (fun z => x z + y z); pm true w2 (fun z => - x z + y z);
        pm false w2 (fun z => x z + y z); pm false w2 (fun z => - x z + y z) ].

(** ExternalForceFunctions.h:119-197 (applyGuoForcingD2Q9): dt * s_i. *)
Definition guo_D2Q9 (F u : nat -> R) (omega p dt : R) : nat -> R :=
  let uf := u 0%nat * F 0%nat + u 1%nat * F 1%nat in
  let om := 1 - 1/2 * omega in
  let x z := z 0%nat : R in let y z := z 1%nat : R in
  let g w l := dt * (w * om * (p * (l F - uf) + p * p * (l u * l F))) in
  vec [ dt * (4/9 * om * (p * (0 - uf)));
        g (1/9) x; g (1/9) y; g (1/9) (fun z => - x z); g (1/9) (fun z => - y z);
        g (1/36) (fun z => x z + y z); g (1/36) (fun z => - x z + y z);
        g (1/36) (fun z => - x z - y z); g (1/36) (fun z => x z - y z) ].

(** ** Collision of one node *)

(** if (rho_i < 1e-10) throw CollisionException *)
Definition checked {A} (rho : R) (k : outcome A) : outcome A := if Rlt_dec rho (1 / 10^10) then Throw else k.

Definition add_relaxed (r : R) (f feq : nat -> R) : nat -> R := fun i => f i + r * (f i - feq i).

Section Node.
  Variables (m : old_model) (init : bool).
  Let st := stencil_of (om_t m) (om_s m).
  Let s := om_s m.
  Let cs2 := st_cs2 st.
  Let p := s / cs2.
  Let r := om_prefactor m.

  (** BGK.cpp:47-117 (the loop body), for the class [c] (virtual getEquilibriumDistributions). *)
  Definition node_generic (c : old_class) (f u : nat -> R) : outcome node_out :=
    let rho := sumf (st_Q st) f in
    checked rho (
    let u' := if init then u else raw_generic st rho f in
    obind (getEquilibriumDistributions c st rho u') (fun feq =>
    Ok {| no_f := add_relaxed r f feq; no_rho := rho; no_u := u' |})).

  (** BGKStandard.cpp:64-239. *)
  Definition node_standard_D2Q9 (f u : nat -> R) : outcome node_out :=
    let rho := sumf 9 f in
    checked rho (
    let (stored, v) := if init then (u, u) else force_velocities m rho (raw_D2Q9 s rho f) in
    let q := - (v 0%nat * v 0%nat + v 1%nat * v 1%nat) / (2 * cs2) in
    let f1 := add_relaxed r f (feq_D2Q9 (1/2) q p rho v) in
    let f2 := match om_forceType m with
              | EXACT_DIFFERENCE => fun i => f1 i + edm_D2Q9 (om_F m) v rho (om_dt m) p i
              | GUO => fun i => f1 i + guo_D2Q9 (om_F m) v (- r) p (om_dt m) i
              | _ => f1
              end in
    Ok {| no_f := f2; no_rho := rho; no_u := stored |}).

  (** BGKStandard.cpp:241-477.  The forcing of 463-471 is applied to the local copy f_i, which is
      not written back: no effect. *)
  Definition node_standard_D3Q19 (f u : nat -> R) : outcome node_out :=
    let rho := sumf 19 f in
    checked rho (
    let (stored, v) := if init then (u, u) else force_velocities m rho (raw_D3Q19 s rho f) in
    let q := - (v 0%nat * v 0%nat + v 1%nat * v 1%nat + v 2%nat * v 2%nat) / (2 * cs2) in
    Ok {| no_f := add_relaxed r f (feq_D3Q19 q p rho v); no_rho := rho; no_u := stored |}).

  (** BGKStandard.cpp:479-652: no forces. *)
  Definition node_standard_D3Q15 (f u : nat -> R) : outcome node_out :=
    let rho := sumf 15 f in
    checked rho (
    let v := if init then u else raw_D3Q15 s rho f in
    let q := - (v 0%nat * v 0%nat + v 1%nat * v 1%nat + v 2%nat * v 2%nat) / (2 * cs2) in
    Ok {| no_f := add_relaxed r f (feq_D3Q15 q p rho v); no_rho := rho; no_u := v |}).

  (** BGKStandard.cpp:44-62. *)
  Definition node_standard (f u : nat -> R) : outcome node_out :=
    match om_t m with
    | Stencil_D2Q9 => node_standard_D2Q9 f u
    | Stencil_D3Q19 => node_standard_D3Q19 f u
    | Stencil_D3Q15 => node_standard_D3Q15 f u
    | _ => node_generic BGKStandard f u
    end.

  (** BGKSteadyState.cpp:50-157. *)
  Definition node_steady (gamma : R) (f u : nat -> R) : outcome node_out :=
    match om_t m with
    | Stencil_D2Q9 =>
        let rho := sumf 9 f in
        checked rho (
        let v := if init then u else raw_D2Q9 s rho f in
        let one_by_2gamma := 1/2 / gamma in
        let q := - (v 0%nat * v 0%nat + v 1%nat * v 1%nat) / cs2 in
        Ok {| no_f := add_relaxed r f (feq_D2Q9 one_by_2gamma (one_by_2gamma * q) p rho v);
              no_rho := rho; no_u := v |})
    | _ => node_generic (BGKSteadyState gamma) f u
    end.

  (** BGKStandardTransformed.cpp:46-162: the stored density has rho0 added for D2Q9 only. *)
  Definition node_transformed (f u : nat -> R) : outcome node_out :=
    match om_t m with
    | Stencil_D2Q9 =>
        let rho := sumf 9 f + rho0 in
        checked rho (
        let v := if init then u else raw_D2Q9 s rho f in
        let q := - (v 0%nat * v 0%nat + v 1%nat * v 1%nat) / (2 * cs2) in
        Ok {| no_f := add_relaxed r f (feq_transformed q p rho v); no_rho := rho; no_u := v |})
    | _ => node_generic BGKStandardTransformed f u
    end.

  (** BGKIncompressible.cpp:40-190. *)
  Definition node_incompressible (f u : nat -> R) : outcome node_out :=
    match om_t m with
    | Stencil_D2Q9 =>
        let rho := sumf 9 f in
        checked rho (
        let v := if init then u else raw_D2Q9 s rho f in
        let q := - (v 0%nat * v 0%nat + v 1%nat * v 1%nat) / (2 * cs2) in
        Ok {| no_f := add_relaxed r f (feq_incompressible q p rho v); no_rho := rho; no_u := v |})
    | _ => Throw
    end.

  (** BGKRegularized.cpp:185-222 and 443-480: Q[a][b][c] and fi1[a]. *)
  Definition old_Q (a b c : nat) : R := st_e st a b * st_e st a c - (if Nat.eqb b c then cs2 else 0).
  Definition old_fi1 (pi : nat -> nat -> R) (a : nat) : R :=
    sumf (st_D st) (fun b => sumf (st_D st) (fun c => st_w st a / (2 * cs2 * cs2) * old_Q a b c * pi b c)).

  (** BGKRegularized.cpp:161-182: pi in units of the lattice, minus its equilibrium part. *)
  Definition pi_D2Q9 (f : nat -> R) (b c : nat) : R :=
    match b, c with
    | O, O => (f 1%nat + f 3%nat + f 5%nat + f 6%nat + f 7%nat + f 8%nat)
    | O, _ => (f 5%nat - f 6%nat + f 7%nat - f 8%nat)
    | _, O => (f 5%nat - f 6%nat + f 7%nat - f 8%nat)
    | _, _ => (f 2%nat + f 4%nat + f 5%nat + f 6%nat + f 7%nat + f 8%nat)
    end.

  (** BGKRegularized.cpp:63-228. *)
  Definition node_regularized_D2Q9 (f u : nat -> R) : outcome node_out :=
    let rho := sumf 9 f in
    checked rho (
    let v := if init then u else raw_D2Q9 s rho f in
    let q := - (v 0%nat * v 0%nat + v 1%nat * v 1%nat) / (2 * cs2) in
    let feq := feq_D2Q9 (1/2) q p rho v in
    let fi1 := old_fi1 (fun b c => pi_D2Q9 f b c - pi_D2Q9 feq b c) in
    Ok {| no_f := fun a => feq a + (1 + r) * fi1 a; no_rho := rho; no_u := v |}).

  (** BGKRegularized.cpp:230-519.  In the initialisation u_0_i, u_1_i, u_2_i are read without
      having been set.  pieq is computed but not subtracted from pi. *)
  Definition node_regularized_D3Q19 (f u : nat -> R) : outcome node_out :=
    let rho := sumf 19 f in
    checked rho (
    if init then UB else
    let (stored, v) := force_velocities m rho (raw_D3Q19 s rho f) in
    let q := - (v 0%nat * v 0%nat + v 1%nat * v 1%nat + v 2%nat * v 2%nat) / (2 * cs2) in
    let feq := feq_D3Q19 q p rho v in
    let fi1 := old_fi1 (fun b c => sumf 19 (fun a => f a * st_e st a b * st_e st a c)) in
    Ok {| no_f := fun a => feq a + (1 + r) * fi1 a; no_rho := rho; no_u := stored |}).

  Definition node_regularized (f u : nat -> R) : outcome node_out :=
    match om_t m with
    | Stencil_D2Q9 => node_regularized_D2Q9 f u
    | Stencil_D3Q19 => node_regularized_D3Q19 f u
    | _ => Throw
    end.

  (** MRTStandard.cpp:99-119, MRTEntropic.cpp:63-80: moments. *)
  Definition mrt_moments (f : nat -> R) : nat -> R :=
    vec [ sumf 9 f;
          - 4 * f 0%nat - f 1%nat - f 2%nat - f 3%nat - f 4%nat + 2 * (f 5%nat + f 6%nat + f 7%nat + f 8%nat);
          4 * f 0%nat - 2 * (f 1%nat + f 2%nat + f 3%nat + f 4%nat) + f 5%nat + f 6%nat + f 7%nat + f 8%nat;
          f 1%nat - f 3%nat + f 5%nat - f 6%nat - f 7%nat + f 8%nat;
          - 2 * (f 1%nat - f 3%nat) + f 5%nat - f 6%nat - f 7%nat + f 8%nat;
          f 2%nat - f 4%nat + f 5%nat + f 6%nat - f 7%nat - f 8%nat;
          - 2 * (f 2%nat - f 4%nat) + f 5%nat + f 6%nat - f 7%nat - f 8%nat;
          f 1%nat - f 2%nat + f 3%nat - f 4%nat;
          f 5%nat - f 6%nat + f 7%nat - f 8%nat ].

  (** MRTStandard.cpp:77-86, MRTEntropic.cpp:82-91. *)
  Definition MRTWeights : nat -> R := vec [9; 36; 36; 6; 12; 6; 12; 4; 4].

  (** MRTStandard.cpp:141-157, MRTEntropic.cpp:140-156: back to populations. *)
  Definition mrt_back (n : nat -> R) : nat -> R :=
    vec [ n 0%nat - 4 * (n 1%nat - n 2%nat);
          n 0%nat - n 1%nat - 2 * (n 2%nat + n 4%nat) + n 3%nat + n 7%nat;
          n 0%nat - n 1%nat - 2 * (n 2%nat + n 6%nat) + n 5%nat - n 7%nat;
          n 0%nat - n 1%nat - 2 * (n 2%nat - n 4%nat) - n 3%nat + n 7%nat;
          n 0%nat - n 1%nat - 2 * (n 2%nat - n 6%nat) - n 5%nat - n 7%nat;
          n 0%nat + n 1%nat + n 1%nat + n 2%nat + n 3%nat + n 4%nat + n 5%nat + n 6%nat + n 8%nat;
          n 0%nat + n 1%nat + n 1%nat + n 2%nat - n 3%nat - n 4%nat + n 5%nat + n 6%nat - n 8%nat;
          n 0%nat + n 1%nat + n 1%nat + n 2%nat - n 3%nat - n 4%nat - n 5%nat - n 6%nat + n 8%nat;
          n 0%nat + n 1%nat + n 1%nat + n 2%nat + n 3%nat + n 4%nat - n 5%nat - n 6%nat - n 8%nat ].

  (** MRTStandard.cpp:90-95: relaxation rates. *)
  Definition mrt_rates : nat -> R :=
    let s7 := 1 / (om_tau m + 1/2) in
    let s4 := 8 * (2 - s7) / (8 - s7) in
    vec [0; 16/10; 18/10; 0; s4; 0; s4; s7; s7].

  (** MRTStandard.cpp:121-132: moment equilibria; ux, uy are the moments 3 and 5. *)
  Definition mrt_meq (rho ux uy : R) : nat -> R :=
    vec [ rho; rho * (- 2 + 3 * (ux * ux + uy * uy)); rho * (1 - 3 * (ux * ux + uy * uy));
          rho * ux; - rho * ux; rho * uy; - rho * uy; rho * (ux * ux - uy * uy); rho * ux * uy ].

  (** MRTStandard.cpp:43-163. *)
  Definition node_mrt_standard (f u : nat -> R) : outcome node_out :=
    match om_t m with
    | Stencil_D2Q9 =>
        let rho := sumf 9 f in
        if Req_EM_T rho 0 then UB else
        let v := if init then u else raw_D2Q9 s rho f in
        let mo := mrt_moments f in
        let meq := mrt_meq rho (mo 3%nat) (mo 5%nat) in
        Ok {| no_f := mrt_back (fun j => (mo j - mrt_rates j * (mo j - meq j)) / MRTWeights j);
              no_rho := rho; no_u := v |}
    | _ => Throw
    end.

  (** MRTEntropic.cpp:39-165.  The density check reads the density stored before ([rho_old]). *)
  Definition node_mrt_entropic_D2Q9 (rho_old : R) (f u : nat -> R) : outcome node_out :=
    checked rho_old (
    let mo := mrt_moments f in
    let rho := mo 0%nat in let jx := mo 3%nat in let jy := mo 5%nat in
    if Req_EM_T rho 0 then UB else
    let v := if init then u else vec [s / rho * jx; s / rho * jy] in
    let k := - 1 / (om_tau m + 1/2) in
    let m1 := mo 1%nat + k * (mo 1%nat - (- 2 * rho + 3 / rho * (jx * jx + jy * jy))) in
    let m7 := mo 7%nat + k * (mo 7%nat - (jx * jx - jy * jy)) in
    let m8 := mo 8%nat + k * (mo 8%nat - jx * jy) in
    let n := vec [rho; m1; - rho - m1; jx; - jx; jy; - jy; m7; m8] in
    Ok {| no_f := mrt_back (fun j => n j / MRTWeights j); no_rho := rho; no_u := v |}).

  (** MRTEntropic.cpp:167-305. *)
  Definition node_mrt_entropic_D3Q19 (rho_old : R) (f u : nat -> R) : outcome node_out :=
    checked rho_old (
    let mo i := sumf 19 (fun j => matR MRTEntropic_tm i j * f j) in
    let rho := mo 0%nat in let jx := mo 3%nat in let jy := mo 5%nat in let jz := mo 7%nat in
    if Req_EM_T rho 0 then UB else
    let v := if init then u else vec [s / rho * jx; s / rho * jy; s / rho * jz] in
    let k := - 1 / (om_tau m + 1/2) in
    let rel i meq := mo i + k * (mo i - meq) in
    let m1 := rel 1%nat (- 11 * rho + 19 / rho * (jx * jx + jy * jy + jz * jz)) in
    let m9 := rel 9%nat (1 / rho * (2 * jx * jx - (jy * jy + jz * jz))) in
    let m11 := rel 11%nat (1 / rho * (jy * jy - jz * jz)) in
    let m13 := rel 13%nat (1 / rho * jx * jy) in
    let m14 := rel 14%nat (1 / rho * jy * jz) in
    let m15 := rel 15%nat (1 / rho * jx * jz) in
    let n := vec [rho; m1; - 7 / 38 * rho - 11 / 38 * m1; jx; - 2 / 3 * jx; jy; - 2 / 3 * jy; jz; - 2 / 3 * jz;
                  m9; - 1 / 2 * m9; m11; - 1 / 2 * m11; m13; m14; m15; 0; 0; 0] in
    Ok {| no_f := fun i => sumf 19 (fun j => matR MRTEntropic_invm i j * n j); no_rho := rho; no_u := v |}).

  Definition node_mrt_entropic (rho_old : R) (f u : nat -> R) : outcome node_out :=
    match om_t m with
    | Stencil_D2Q9 => node_mrt_entropic_D2Q9 rho_old f u
    | Stencil_D3Q19 => node_mrt_entropic_D3Q19 rho_old f u
    | _ => Throw
    end.
End Node.

(** The loop body of collideAll of each class. *)
Definition old_node (c : old_class) (m : old_model) (init : bool) (rho_old : R) (f u : nat -> R) : outcome node_out :=
  match c with
  | BGKStandard => node_standard m init f u
  | BGKSteadyState gamma => node_steady m init gamma f u
  | BGKStandardTransformed => node_transformed m init f u
  | BGKIncompressible => node_incompressible m init f u
  | BGKRegularized => node_regularized m init f u
  | MRTStandard => node_mrt_standard m init f u
  | MRTEntropic => node_mrt_entropic m init rho_old f u
  end.

(** The dispatch on the stencil: which classes throw for which stencils. *)
Definition old_supported (c : old_class) (t : StencilType) : bool :=
  match c, t with
  | (BGKStandard | BGKSteadyState _ | BGKStandardTransformed), _ => true
  | (BGKIncompressible | MRTStandard), Stencil_D2Q9 => true
  | (BGKRegularized | MRTEntropic), (Stencil_D2Q9 | Stencil_D3Q19) => true
  | _, _ => false
  end.

(** The loop over the locally owned degrees of freedom. *)
Fixpoint old_loop (c : old_class) (m : old_model) (init : bool) (nodes : list nat) (s : fields) : outcome fields :=
  match nodes with
  | [] => Ok s
  | n :: rest =>
      obind (old_node c m init (fl_rho s n) (fl_f s n) (fl_u s n)) (fun o =>
      old_loop c m init rest
        {| fl_f := upd (fl_f s) n (no_f o); fl_rho := upd (fl_rho s) n (no_rho o);
           fl_u := upd (fl_u s) n (no_u o) |})
  end.

Definition old_collideAll (c : old_class) (m : old_model) (init : bool) (nodes : list nat) (s : fields) : outcome fields :=
  if old_supported c (om_t m) then old_loop c m init nodes s else Throw.

(** ** Initialisation of the populations *)

(** CFDSolver.cpp:1116-1129: equilibrium populations at the owned degrees of freedom, from the
    densities and velocities already stored. *)
Fixpoint init_equilibrium (c : old_class) (st : stencil) (nodes : list nat) (s : fields) : outcome fields :=
  match nodes with
  | [] => Ok s
  | n :: rest =>
      obind (getEquilibriumDistributions c st (fl_rho s n) (fl_u s n)) (fun feq =>
      init_equilibrium c st rest
        {| fl_f := upd (fl_f s) n feq; fl_rho := fl_rho s; fl_u := fl_u s |})
  end.

(** CFDSolver.cpp:1268-1328 (ITERATIVE).  [stream] is CFDSolver::stream (one streaming step of the
    populations); an exception of stream or collideAll ends the program.  The residual starts at
    1000000000.  [fuel] bounds the number of iterations of this function, the while loop has none;
    [None] means that the fuel ran out. *)
Section Iterative.
  Variables (c : old_class) (m : old_model) (nodes : list nat).
  Variable stream : (nat -> nat -> R) -> (nat -> nat -> R).
  Variables (target : R) (max_iterations : nat).

  Definition init_residual (rho rho' : nat -> R) : R :=
    fold_right Rplus 0 (map (fun n => (rho n - rho' n) * (rho n - rho' n)) nodes).

  Fixpoint iterate (fuel loopCount : nat) (residual : R) (s : fields) : option (outcome (fields * nat)) :=
    match fuel with
    | O => None
    | S fuel' =>
        if Rlt_dec target residual then
          if Nat.ltb max_iterations loopCount then Some (Ok (s, loopCount))
          else
            let s1 := {| fl_f := stream (fl_f s); fl_rho := fl_rho s; fl_u := fl_u s |} in
            match old_collideAll c m true nodes s1 with
            | Ok s2 => iterate fuel' (S loopCount) (init_residual (fl_rho s) (fl_rho s2)) s2
            | Throw => Some Throw
            | UB => Some UB
            end
        else Some (Ok (s, loopCount))
    end.

  Definition init_iterative (fuel : nat) (s : fields) : option (outcome (fields * nat)) :=
    match init_equilibrium c (stencil_of (om_t m) (om_s m)) nodes s with
    | Ok s0 => iterate fuel 0 1000000000 s0
    | Throw => Some Throw
    | UB => Some UB
    end.
End Iterative.

(** CFDSolver.cpp:1417-1430 (getTau): only for two collision schemes. *)
Definition getTau (c : old_class) (viscosity dt : R) (st : stencil) : outcome R :=
  match c with
  | BGKStandard | BGKStandardTransformed => calculateRelaxationParameter c viscosity dt st
  | _ => Ok 0
  end.

(** CFDSolver.cpp:1218-1259 (GRADIENTS): what one quadrature point of one cell adds to the
    populations of its degree of freedom.  [grad a b] is the derivative of velocity component [a]
    in direction [b]; dx = 1.0. *)
Definition gradient_fneq (st : stencil) (tau rho : R) (grad : nat -> nat -> R) (i : nat) : R :=
  let dx := 1 in
  let Pi_1 a b := - 1 * (tau + 1/2) * rho / st_cs2 st * dx * grad a b in
  sumf (st_D st) (fun a => sumf (st_D st) (fun b =>
    (st_e st i a * st_e st i b - delta a b * st_cs2 st) * Pi_1 a b)) * st_w st i.

(** CFDSolver.cpp:1143-1266: a degree of freedom is visited once by every cell that contains it
    (once for discontinuous elements, FE_Q: several times); [visits] holds the gradients seen.
    The populations start from the equilibrium. *)
Definition gradient_init (st : stencil) (tau rho : R) (visits : list (nat -> nat -> R)) (f : nat -> R) : nat -> R :=
  fun i => fold_right (fun g acc => acc + gradient_fneq st tau rho g i) (f i) visits.
