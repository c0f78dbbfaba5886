(** Model of /repo/src/library/natrium/collision_advanced/Equilibria.h and of the
    moment functions of AuxiliaryCollisionFunctions.h.  The lattice argument [L]
    is the unscaled stencil held by GeneralCollisionData. *)
From Verif Require Import Prelude ModelStencils.
Open Scope R_scope.

(** AuxiliaryCollisionFunctions.h:161-172 (constructor of GeneralCollisionData):
    e[j][i] = direction / scaling, weight, cs2 = scaled_cs2 / scaling^2. *)
Definition unscale (st : stencil) (scaling : R) : stencil :=
  {| st_D := st_D st; st_Q := st_Q st;
     st_e := fun j i => st_e st j i / scaling;
     st_w := st_w st;
     st_opp := st_opp st;
     st_cs := st_cs st / scaling;
     st_cs2 := st_cs2 st / (scaling * scaling);
     st_maxvel := st_maxvel st / scaling |}.

(** Is this the template instance <D,Q>? *)
Definition is_DQ (L : stencil) (D Q : nat) : bool := Nat.eqb (st_D L) D && Nat.eqb (st_Q L) Q.

(** AuxiliaryCollisionFunctions.h:45-59. *)
Definition calculateDensity (Q : nat) (f : nat -> R) : outcome R :=
  let density := sumf Q f in
  if Rlt_dec density (1 / 10^10) then Throw else Ok density.

(** AuxiliaryCollisionFunctions.h:231-242 (generic calculateVelocity). *)
Definition calculateVelocity_generic (L : stencil) (f : nat -> R) (density : R) (j : nat) : R :=
  sumf (st_Q L) (fun i => st_e L i j * f i) * 1 / density.

(** AuxiliaryCollisionFunctions.h:258-268. *)
Definition calculateVelocity_2_9 (f : nat -> R) (density : R) (j : nat) : R :=
  match j with
  | O => 1 / density * (f 1%nat + f 5%nat + f 8%nat - f 3%nat - f 6%nat - f 7%nat)
  | _ => 1 / density * (f 2%nat + f 5%nat + f 6%nat - f 4%nat - f 7%nat - f 8%nat)
  end.

(** AuxiliaryCollisionFunctions.h:270-287. *)
Definition calculateVelocity_3_19 (f : nat -> R) (density : R) (j : nat) : R :=
  match j with
  | O => 1 / density * (f 1%nat - f 3%nat + f 7%nat - f 8%nat - f 9%nat + f 10%nat + f 11%nat
                        + f 12%nat - f 13%nat - f 14%nat)
  | 1%nat => 1 / density * (- f 5%nat + f 6%nat - f 11%nat + f 12%nat + f 13%nat - f 14%nat
                        - f 15%nat + f 16%nat + f 17%nat - f 18%nat)
  | _ => 1 / density * (f 2%nat - f 4%nat + f 7%nat + f 8%nat - f 9%nat - f 10%nat + f 15%nat
                        + f 16%nat - f 17%nat - f 18%nat)
  end.

(** Template selection of calculateVelocity<T_D,T_Q>. *)
Definition calculateVelocity (L : stencil) (f : nat -> R) (density : R) : nat -> R :=
  if is_DQ L 2 9 then calculateVelocity_2_9 f density
  else if is_DQ L 3 19 then calculateVelocity_3_19 f density
  else calculateVelocity_generic L f density.

(** Equilibria.h:70-80: uu_term and ue_term. *)
Definition uu_term (L : stencil) (u : nat -> R) : R :=
  sumf (st_D L) (fun j => - (u j * u j) / (2 * st_cs2 L)).
Definition ue_term (L : stencil) (u : nat -> R) (i : nat) : R :=
  sumf (st_D L) (fun j => (u j * st_e L i j) / st_cs2 L).

(** Equilibria.h:66-83 (generic BGKEquilibrium::calc). *)
Definition BGKEquilibrium_generic (L : stencil) (rho : R) (u : nat -> R) (i : nat) : R :=
  st_w L i * rho * (1 + ue_term L u i * (1 + 1/2 * ue_term L u i) + uu_term L u).

(** Equilibria.h:33-63 (BGKEquilibrium<2,9>::calc). *)
Definition BGKEquilibrium_2_9 (L : stencil) (rho : R) (u : nat -> R) (i : nat) : R :=
  let prefactor := 1 / st_cs2 L in
  let scalar_product := u 0%nat * u 0%nat + u 1%nat * u 1%nat in
  let uSquareTerm := - scalar_product / (2 * st_cs2 L) in
  let plus weighting mixedTerm := weighting * (1 + mixedTerm * (1 + 1/2 * mixedTerm) + uSquareTerm) in
  let minus weighting mixedTerm := weighting * (1 - mixedTerm * (1 - 1/2 * mixedTerm) + uSquareTerm) in
  let w0 := 4/9 * rho in
  let w1 := 1/9 * rho in
  let w2 := 1/36 * rho in
  match i with
  | 0%nat => w0 * (1 + uSquareTerm)
  | 1%nat => plus w1 (prefactor * u 0%nat)
  | 3%nat => minus w1 (prefactor * u 0%nat)
  | 2%nat => plus w1 (prefactor * u 1%nat)
  | 4%nat => minus w1 (prefactor * u 1%nat)
  | 5%nat => plus w2 (prefactor * (u 0%nat + u 1%nat))
  | 7%nat => minus w2 (prefactor * (u 0%nat + u 1%nat))
  | 6%nat => plus w2 (prefactor * (- u 0%nat + u 1%nat))
  | _ => minus w2 (prefactor * (- u 0%nat + u 1%nat))
  end.

Definition BGKEquilibrium_calc (L : stencil) (rho : R) (u : nat -> R) : nat -> R :=
  if is_DQ L 2 9 then BGKEquilibrium_2_9 L rho u else BGKEquilibrium_generic L rho u.

(** AuxiliaryCollisionFunctions.h:519-535 (calculateH3); eye[a][b] = delta a b (217-229). *)
Definition H3 (L : stencil) (i a b c : nat) : R :=
  let e := st_e L in let cs2 := st_cs2 L in
  e i a * e i b * e i c - cs2 * (e i a * delta b c + e i b * delta a c + e i c * delta a b).

(** AuxiliaryCollisionFunctions.h:537-566 (calculateH4). *)
Definition H4 (L : stencil) (i a b c d : nat) : R :=
  let e := st_e L in let cs2 := st_cs2 L in
  let power4 := e i a * e i b * e i c * e i d in
  let power2 := e i a * e i b * delta c d + e i a * e i c * delta b d + e i a * e i d * delta b c
              + e i b * e i c * delta a d + e i b * e i d * delta a c + e i c * e i d * delta a b in
  let power0 := delta a b * delta c d + delta a c * delta b d + delta a d * delta b c in
  power4 - cs2 * power2 + cs2 * cs2 * power0.

(** Equilibria.h:119-267 (QuarticEquilibrium::polynomial), with the six [feq[i] +=]
    contributions as summands. *)
Definition QuarticEquilibrium_calc (L : stencil) (rho : R) (u : nat -> R) (T : R) (i : nat) : R :=
  let w := st_w L in let e := st_e L in let cs2 := st_cs2 L in
  let ux := u 0%nat in let uy := u 1%nat in let uz := u 2%nat in
  let T1 := cs2 * (T - 1) in
  let three := Nat.eqb (st_D L) 3 in
  (* 139-157 *)
  let a_xxx := ux * ux * ux + T1 * (ux + ux + ux) in
  let a_xxy := ux * ux * uy + T1 * uy in
  let a_xyy := ux * uy * uy + T1 * ux in
  let a_yyy := uy * uy * uy + T1 * (uy + uy + uy) in
  let a_xxxx := ux * ux * ux * ux + T1 * ux * ux * 6 + T1 * T1 * 3 in
  let a_yyyy := uy * uy * uy * uy + T1 * uy * uy * 6 + T1 * T1 * 3 in
  let a_xxxy := ux * ux * ux * uy + T1 * (ux * uy * 3) in
  let a_xyyy := ux * uy * uy * uy + T1 * (ux * uy * 3) in
  let a_xxyy := ux * ux * uy * uy + T1 * (ux * ux + uy * uy) + T1 * T1 in
  (* 162-196 *)
  let a_zzz := uz * uz * uz + T1 * (uz + uz + uz) in
  let a_xxz := ux * ux * uz + T1 * uz in
  let a_xzz := ux * uz * uz + T1 * ux in
  let a_yzz := uy * uz * uz + T1 * uy in
  let a_yyz := uy * uy * uz + T1 * uz in
  let a_xyz := ux * uy * uz in
  let a_zzzz := uz * uz * uz * uz + T1 * uz * uz * 6 + T1 * T1 * 3 in
  let a_xxxz := ux * ux * ux * uz + T1 * (ux * uz * 3) in
  let a_yyyz := uy * uy * uy * uz + T1 * (uy * uz * 3) in
  let a_xzzz := ux * uz * uz * uz + T1 * (ux * uz * 3) in
  let a_yzzz := uy * uz * uz * uz + T1 * (uy * uz * 3) in
  let a_xxzz := ux * ux * uz * uz + T1 * (ux * ux + uz * uz) + T1 * T1 in
  let a_yyzz := uy * uy * uz * uz + T1 * (uy * uy + uz * uz) + T1 * T1 in
  let a_xyzz := ux * uy * uz * uz + T1 * (ux * uy) in
  let a_xyyz := ux * uy * uy * uz + T1 * (ux * uz) in
  let a_xxyz := ux * ux * uy * uz + T1 * (uy * uz) in
  (* 203 *)
  w i * rho * (1 + ue_term L u i * (1 + 1/2 * ue_term L u i) + uu_term L u)
  (* 204-211 *)
  + sumf (st_D L) (fun alp => sumf (st_D L) (fun bet =>
      rho * w i / (2 * cs2) * ((T - 1) * delta alp bet * e i alp * e i bet - cs2 * delta alp bet * (T - 1))))
  (* 219-220 *)
  + w i * rho / (6 * cs2 * cs2 * cs2) *
    (a_xxx * H3 L i 0 0 0 + 3 * (a_xxy * H3 L i 0 0 1 + a_xyy * H3 L i 0 1 1) + a_yyy * H3 L i 1 1 1)
  (* 222-236 *)
  + (if three then
       w i * rho / (6 * cs2 * cs2 * cs2) *
       (a_zzz * H3 L i 2 2 2 + 3 * (a_xxz * H3 L i 0 0 2 + a_xzz * H3 L i 0 2 2 + a_yzz * H3 L i 1 2 2 + a_yyz * H3 L i 1 1 2)
        + 6 * a_xyz * H3 L i 0 1 2)
     else 0)
  (* 245-247 *)
  + w i * rho / (24 * cs2 * cs2 * cs2 * cs2) *
    (H4 L i 0 0 0 0 * a_xxxx + H4 L i 1 1 1 1 * a_yyyy + 6 * H4 L i 0 0 1 1 * a_xxyy + 4 * H4 L i 0 1 1 1 * a_xyyy
     + 4 * H4 L i 0 0 0 1 * a_xxxy)
  (* 249-265 *)
  + (if three then
       w i * rho / (24 * cs2 * cs2 * cs2 * cs2) *
       (H4 L i 2 2 2 2 * a_zzzz
        + 4 * (H4 L i 0 2 2 2 * a_xzzz + H4 L i 1 2 2 2 * a_yzzz + H4 L i 0 0 0 2 * a_xxxz + H4 L i 1 1 1 2 * a_yyyz)
        + 6 * (H4 L i 0 0 2 2 * a_xxzz + H4 L i 1 1 2 2 * a_yyzz)
        + 12 * (H4 L i 0 0 1 2 * a_xxyz + H4 L i 0 1 1 2 * a_xyyz + H4 L i 0 1 2 2 * a_xyzz))
     else 0).

(** Equilibria.h:293-311. *)
Definition SteadyStateEquilibrium_calc (L : stencil) (gamma rho : R) (u : nat -> R) (i : nat) : R :=
  st_w L i * rho * (1 + ue_term L u i * (1 + 1/2 * ue_term L u i / gamma) + uu_term L u / gamma).

(** Equilibria.h:331-349. *)
Definition IncompressibleEquilibrium_calc (L : stencil) (rho : R) (u : nat -> R) (i : nat) : R :=
  st_w L i * (rho + ue_term L u i * (1 + 1/2 * ue_term L u i) + uu_term L u).

(** The equilibrium classes usable as template argument T_equilibrium. *)
Inductive T_equilibrium :=
| BGKEquilibrium | QuarticEquilibrium | SteadyStateEquilibrium | IncompressibleEquilibrium
| EntropicEquilibrium.

(** T_equilibrium::calc; Equilibria.h:370-389: the entropic one throws. *)
Definition eq_calc (k : T_equilibrium) (L : stencil) (gamma_ss rho : R) (u : nat -> R) (T : R)
  : outcome (nat -> R) :=
  match k with
  | BGKEquilibrium => Ok (BGKEquilibrium_calc L rho u)
  | QuarticEquilibrium => Ok (QuarticEquilibrium_calc L rho u T)
  | SteadyStateEquilibrium => Ok (SteadyStateEquilibrium_calc L gamma_ss rho u)
  | IncompressibleEquilibrium => Ok (IncompressibleEquilibrium_calc L rho u)
  | EntropicEquilibrium => Throw
  end.
