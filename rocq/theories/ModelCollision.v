(** Model of /repo/src/library/natrium/collision_advanced: AuxiliaryCollisionFunctions.h,
    AuxiliaryMRTFunctions.cpp, CollisionSchemes.h, CollisionOperator.h. *)
From Coq Require Import QArith Qreals.
From Verif Require Import Prelude StencilData MRTData ModelStencils ModelConfigNames ModelEquilibria.
Open Scope R_scope.

(** The part of SolverConfiguration read by the collision
    (getForcingScheme, getEquilibriumScheme, getBGKSteadyStateGamma, getMRTBasis,
    getMRTRelaxationTimes, getHeatCapacityRatioGamma, isPrandtlNumberSet,
    getPrandtlNumber, isSutherlandLawSet). *)
Record collision_config := {
  cc_forcing : ForceType;
  cc_equilibrium : EquilibriumSchemeName;
  cc_ss_gamma : R;
  cc_mrt_basis : MomentBasis;
  cc_mrt_relax : RelaxMode;
  cc_heat_gamma : R;
  cc_prandtl_set : bool;
  cc_prandtl : R;
  cc_sutherland : bool
}.

(** AuxiliaryCollisionFunctions.h:63-78. *)
Definition calculateTauFromNu (viscosity cs2 dt : R) : R := viscosity / (dt * cs2) + 1/2.
Definition calculateTauFromNuAndgamma (viscosity cs2 dt gamma : R) : R := viscosity / (gamma * dt * cs2) + 1/2.

(** AuxiliaryCollisionFunctions.h:105-202: the constant part of GeneralCollisionData.
    [gd_force = None] models problemDescription.hasExternalForce() = false;
    [Some F] carries genData.forces.  (With forcetype NO_FORCING the array stays
    uninitialised in the C++; it is then never read, see the force functions.) *)
Record genData := {
  gd_L : stencil;            (* e, weight, cs2 (unscaled) *)
  gd_scaling : R;
  gd_tau : R;
  gd_dt : R;
  gd_gamma_ss : R;
  gd_force : option (nat -> R);
  gd_cfg : collision_config
}.

(** AuxiliaryCollisionFunctions.h:151-200: the constructor, called from
    CollisionSelection.h with scl = stencil.getScaling() and
    scaled_cs2 = stencil.getSpeedOfSoundSquare(). *)
Definition make_genData (cfg : collision_config) (force : option (nat -> R)) (st : stencil)
    (scaling viscosity dt : R) : genData :=
  let steady := match cc_equilibrium cfg with STEADYSTATE_EQUILIBRIUM => true | _ => false end in
  let gamma := if steady then cc_ss_gamma cfg else 1 in
  {| gd_L := unscale st scaling;
     gd_scaling := scaling;
     gd_tau := if steady then calculateTauFromNuAndgamma viscosity (st_cs2 st) dt gamma
               else calculateTauFromNu viscosity (st_cs2 st) dt;
     gd_dt := dt;
     gd_gamma_ss := gamma;
     gd_force := match force with
                 | Some F => Some (fun i => if steady then F i / gamma else F i)
                 | None => None
                 end;
     gd_cfg := cfg |}.

(** ** Collision schemes *)

(** CollisionSchemes.h:38-40 (BGKCollision::relax). *)
Definition relax_BGK (tau : R) (f feq : nat -> R) : nat -> R :=
  fun p => f p - 1 / tau * (f p - feq p).

(** CollisionSchemes.h:139-151 (initializeQ). *)
Definition reg_Q (L : stencil) (a b c : nat) : R :=
  st_e L a b * st_e L a c - (if Nat.eqb b c then st_cs2 L else 0).

(** CollisionSchemes.h:164-207 (Regularized::relax). *)
Definition relax_Regularized (L : stencil) (tau : R) (f feq : nat -> R) : nat -> R :=
  let pi m n := sumf (st_Q L) (fun j => f j * st_e L j m * st_e L j n)
              - sumf (st_Q L) (fun j => feq j * st_e L j m * st_e L j n) in
  let fi1 a := sumf (st_D L) (fun b => sumf (st_D L) (fun c =>
                 st_w L a / (2 * st_cs2 L * st_cs2 L) * reg_Q L a b c * pi b c)) in
  fun i => feq i + (1 - 1 / tau) * fi1 i.

(** AuxiliaryMRTFunctions.h:70-80 (matrix_vector_product) for a Q x Q matrix. *)
Definition matvec (Q : nat) (M : nat -> nat -> R) (x : nat -> R) : nat -> R :=
  fun i => sumf Q (fun j => M i j * x j).

Definition matR (t : list (list Q)) (i j : nat) : R := Q2R (nth j (nth i t []) 0%Q).

(** AuxiliaryMRTFunctions.cpp:215-246 make_M: template for any other Q throws. *)
Definition make_M (Q : nat) (basis : MomentBasis) : outcome (nat -> nat -> R) :=
  if Nat.eqb Q 9 then
    match basis with
    | DELLAR_D2Q9 => Ok (matR MRTDellarD2Q9_M)
    | LALLEMAND_D2Q9 => Ok (matR MRTLallemandD2Q9_M)
    | _ => Throw
    end
  else if Nat.eqb Q 19 then
    match basis with
    | DHUMIERES_D3Q19 => Ok (matR MRTDHumieresD3Q19_M)
    | _ => Throw
    end
  else Throw.

(** AuxiliaryMRTFunctions.cpp:250-281 make_T. *)
Definition make_T (Q : nat) (basis : MomentBasis) : outcome (nat -> nat -> R) :=
  if Nat.eqb Q 9 then
    match basis with
    | DELLAR_D2Q9 => Ok (matR MRTDellarD2Q9_T)
    | LALLEMAND_D2Q9 => Ok (matR MRTLallemandD2Q9_T)
    | _ => Throw
    end
  else if Nat.eqb Q 19 then
    match basis with
    | DHUMIERES_D3Q19 => Ok (matR MRTDHumieresD3Q19_T)
    | _ => Throw
    end
  else Throw.

(** AuxiliaryMRTFunctions.cpp:292-339 make_diag<9>.  The assertion basis == DELLAR_D2Q9 is
    modelled as [Throw] (abort in debug builds). *)
Definition make_diag_9 (tau : R) (basis : MomentBasis) (mode : RelaxMode) : outcome (nat -> R) :=
  match mode with
  | RELAX_FULL =>
      match basis with
      | DELLAR_D2Q9 | LALLEMAND_D2Q9 =>
          Ok (fun i => match i with 6%nat | 7%nat | 8%nat => 1 | _ => 1 / tau end)
      | _ => Throw
      end
  | DELLAR_RELAX_ONLY_N =>
      match basis with
      | DELLAR_D2Q9 => Ok (fun i => match i with 8%nat => 1 | _ => 1 / tau end)
      | _ => Throw
      end
  | _ => Throw
  end.

(** AuxiliaryMRTFunctions.cpp:341-405 make_diag<19>; assert(tau > 0.5) as [Throw]. *)
Definition make_diag_19 (tau : R) (basis : MomentBasis) (mode : RelaxMode) : outcome (nat -> R) :=
  if Rlt_dec (1/2) tau then
    match mode, basis with
    | RELAX_FULL, DHUMIERES_D3Q19 =>
        Ok (fun i => match i with
                     | 4%nat | 6%nat | 8%nat | 10%nat | 12%nat | 2%nat | 16%nat | 17%nat | 18%nat => 1
                     | _ => 1 / tau
                     end)
    | RELAX_DHUMIERES_PAPER, DHUMIERES_D3Q19 =>
        let s9 := 1 / tau in let s13 := 1 / tau in
        let s1 := 119/100 in let s2 := 14/10 in let s10 := 14/10 in let s4 := 12/10 in let s16 := 198/100 in
        Ok (fun i => nth i [0; s1; s2; 0; s4; 0; s4; 0; s4; s9; s10; s9; s10; s13; s13; s13; s16; s16; s16] 0)
    | _, _ => Throw
    end
  else Throw.

Definition make_diag (Q : nat) (tau : R) (basis : MomentBasis) (mode : RelaxMode) : outcome (nat -> R) :=
  if Nat.eqb Q 9 then make_diag_9 tau basis mode
  else if Nat.eqb Q 19 then make_diag_19 tau basis mode
  else Throw.

(** CollisionSchemes.h:237-263 (MultipleRelaxationTime::relax). *)
Definition relax_MRT (Q : nat) (M T : nat -> nat -> R) (omega : nat -> R) (f feq : nat -> R) : nat -> R :=
  let m := matvec Q M f in
  let meq := matvec Q M feq in
  matvec Q T (fun i => m i - omega i * (m i - meq i)).

(** The collision classes usable as template argument T_collision. *)
Inductive T_collision := BGKCollision | Regularized | MultipleRelaxationTime.

(** T_collision::relax: returns the new local distribution and genData.feq. *)
Definition relax (k : T_collision) (q : T_equilibrium) (gd : genData) (f : nat -> R)
    (rho : R) (u : nat -> R) (T : R) : outcome ((nat -> R) * (nat -> R)) :=
  let L := gd_L gd in
  obind (eq_calc q L (gd_gamma_ss gd) rho u T) (fun feq =>
  match k with
  | BGKCollision => Ok (relax_BGK (gd_tau gd) f feq, feq)
  | Regularized => Ok (relax_Regularized L (gd_tau gd) f feq, feq)
  | MultipleRelaxationTime =>
      let basis := cc_mrt_basis (gd_cfg gd) in
      obind (make_M (st_Q L) basis) (fun M =>
      obind (make_T (st_Q L) basis) (fun Ti =>
      obind (make_diag (st_Q L) (gd_tau gd) basis (cc_mrt_relax (gd_cfg gd))) (fun omega =>
      Ok (relax_MRT (st_Q L) M Ti omega f feq, feq))))
  end).

(** ** External forces *)

(** AuxiliaryCollisionFunctions.h:331-358 (applyMacroscopicForces): the stored velocity. *)
Definition applyMacroscopicForces (gd : genData) (F : nat -> R) (rho : R) (u_raw : nat -> R)
  : outcome (nat -> R) :=
  match cc_forcing (gd_cfg gd) with
  | NO_FORCING => Throw
  | SHIFTING_VELOCITY => Ok (fun j => u_raw j + 1/2 * gd_dt gd * F j / rho)
  | EXACT_DIFFERENCE => Ok u_raw
  | GUO => Throw
  end.

(** AuxiliaryCollisionFunctions.h:360-384 (applyForces): genData.velocity. *)
Definition applyForces (gd : genData) (F : nat -> R) (rho : R) (velocity : nat -> R)
  : outcome (nat -> R) :=
  match cc_forcing (gd_cfg gd) with
  | NO_FORCING => Throw
  | SHIFTING_VELOCITY => Ok (fun i => velocity i + gd_tau gd * gd_dt gd * F i / rho / gd_scaling gd)
  | EXACT_DIFFERENCE => Ok velocity
  | GUO => Throw
  end.

(** AuxiliaryCollisionFunctions.h:386-417 (postCollisionApplyForces): returns the
    distribution and the stored velocity. *)
Definition postCollisionApplyForces (q : T_equilibrium) (gd : genData) (F : nat -> R) (rho T : R)
    (velocity u_raw f feq : nat -> R) : outcome ((nat -> R) * (nat -> R)) :=
  match cc_forcing (gd_cfg gd) with
  | NO_FORCING => Throw
  | SHIFTING_VELOCITY => Ok (f, u_raw)
  | EXACT_DIFFERENCE =>
      let velocity' j := velocity j + gd_dt gd * F j / rho / gd_scaling gd in
      let u_raw' j := u_raw j + 1/2 * gd_dt gd * F j / rho in
      obind (eq_calc q (gd_L gd) (gd_gamma_ss gd) rho velocity' T) (fun shiftedEq =>
      Ok (fun i => f i + (shiftedEq i - feq i), u_raw'))
  | GUO => Throw
  end.

(** ** The collision operator *)

(** What one pass of the loop body writes back for one node. *)
Record node_out := { no_f : nat -> R; no_rho : R; no_u : nat -> R }.

(** CollisionOperator.h:52-104: the loop body of collideAll (incompressible), for one
    node with populations [f] and stored velocity [u_raw]. *)
Definition collide_node (k : T_collision) (q : T_equilibrium) (gd : genData) (init : bool)
    (f u_raw : nat -> R) : outcome node_out :=
  let L := gd_L gd in
  obind (calculateDensity (st_Q L) f) (fun rho =>
  let T := 1 in
  let velocity := calculateVelocity L f rho in
  obind
    (if init then Ok (u_raw, fun j => u_raw j / gd_scaling gd)
     else
       let u_raw1 j := velocity j * gd_scaling gd in
       match gd_force gd with
       | None => Ok (u_raw1, velocity)
       | Some F =>
           obind (applyMacroscopicForces gd F rho u_raw1) (fun u_raw2 =>
           obind (applyForces gd F rho velocity) (fun velocity2 => Ok (u_raw2, velocity2)))
       end)
    (fun uv =>
  obind (relax k q gd f rho (snd uv) T) (fun ff =>
  match gd_force gd with
  | None => Ok {| no_f := fst ff; no_rho := rho; no_u := fst uv |}
  | Some F =>
      obind (postCollisionApplyForces q gd F rho T (snd uv) (fst uv) (fst ff) (snd ff)) (fun fu =>
      Ok {| no_f := fst fu; no_rho := rho; no_u := snd fu |})
  end))).

(** Distributed vectors of one run: populations, densities and velocities of every
    global node. *)
Record fields := { fl_f : nat -> nat -> R;   (* node, direction *)
                   fl_rho : nat -> R;
                   fl_u : nat -> nat -> R }. (* node, component *)

Definition upd {A} (x : nat -> A) (n : nat) (v : A) : nat -> A :=
  fun m => if Nat.eqb m n then v else x m.

(** CollisionOperator.h:51-104: loop over the locally owned nodes; also returns
    genData.density as left behind by the last iteration. *)
Fixpoint collide_loop (k : T_collision) (q : T_equilibrium) (gd : genData) (init : bool)
    (nodes : list nat) (density : R) (s : fields) : outcome (fields * R) :=
  match nodes with
  | [] => Ok (s, density)
  | n :: rest =>
      obind (collide_node k q gd init (fl_f s n) (fl_u s n)) (fun o =>
      collide_loop k q gd init rest (no_rho o)
        {| fl_f := upd (fl_f s) n (no_f o); fl_rho := upd (fl_rho s) n (no_rho o);
           fl_u := upd (fl_u s) n (no_u o) |})
  end.

(** CollisionOperator.h:26-111: collideAll on the nodes owned by this rank.
    genData.density starts at 0 (AuxiliaryCollisionFunctions.h:122); lines 106-109
    throw DensityZeroException. *)
Definition collideAll (k : T_collision) (q : T_equilibrium) (gd : genData) (init : bool)
    (nodes : list nat) (s : fields) : outcome fields :=
  obind (collide_loop k q gd init nodes 0 s) (fun sd =>
  if Rle_dec (snd sd) (1 / 10^10) then Throw else Ok (fst sd)).

(** ** Compressible collision (populations f and g) *)

(** AuxiliaryCollisionFunctions.h:289-307 (calculateTemperature). *)
Definition calculateTemperature (gd : genData) (f g : nat -> R) (velocity : nat -> R) (density : R) : R :=
  let L := gd_L gd in
  let temperature := sumf (st_Q L) (fun i =>
     sumf (st_D L) (fun a => (st_e L i a - velocity a) * (st_e L i a - velocity a)) * f i / st_cs2 L + g i) in
  let gamma := cc_heat_gamma (gd_cfg gd) in
  let C_v := 1 / (gamma - 1) in
  temperature * (1/2) / (density * C_v).

(** AuxiliaryCollisionFunctions.h:420-431 (calculateGeqFromFeq). *)
Definition calculateGeqFromFeq (gd : genData) (T : R) (feq : nat -> R) (i : nat) : R :=
  let C_v := 1 / (cc_heat_gamma (gd_cfg gd) - 1) in
  feq i * T * (2 * C_v - INR (st_D (gd_L gd))).

(** AuxiliaryCollisionFunctions.h:445-460 (calculateCenteredHeatFluxTensor). *)
Definition centeredHeatFluxTensor (L : stencil) (velocity f : nat -> R) (a b c : nat) : R :=
  sumf (st_Q L) (fun i => ((st_e L i a - velocity a) * (st_e L i b - velocity b) * (st_e L i c - velocity c)) * f i).

(** AuxiliaryCollisionFunctions.h:462-472 (calculateCenteredMomentumFlux). *)
Definition centeredMomentumFlux (L : stencil) (velocity g : nat -> R) (a : nat) : R :=
  sumf (st_Q L) (fun i => (st_e L i a - velocity a) * g i).

(** AuxiliaryCollisionFunctions.h:484-501 (calculateFStar). *)
Definition calculateFStar (L : stencil) (QNeq : nat -> nat -> nat -> R) (i : nat) : R :=
  let D := st_D L in let cs2 := st_cs2 L in let e := st_e L in
  let cs6 := 6 * cs2 * cs2 * cs2 in
  sumf D (fun a => sumf D (fun b => sumf D (fun c =>
    st_w L i * (QNeq a b c * (e i a * e i b * e i c - 3 * cs2 * e i c * delta a b)) / cs6))).

(** AuxiliaryCollisionFunctions.h:503-515 (calculateGStar). *)
Definition calculateGStar (L : stencil) (T : R) (flux : nat -> R) (i : nat) : R :=
  sumf (st_D L) (fun a => st_w L i * (flux a * st_e L i a) / T).

(** AuxiliaryCollisionFunctions.h:474-481 (calculateKnudsenNumberEstimate; std::abs). *)
Definition knudsenEstimate (L : stencil) (f feq : nat -> R) : R :=
  sumf (st_Q L) (fun i => Rabs (f i - feq i) / st_w L i) / INR (st_Q L).

(** CollisionSchemes.h:43-118 (BGKCollision::relaxWithG): new f, new g, feq, mask.
    [tau_factor] of lines 91-97 is computed but not used and is left out. *)
Definition relaxWithG (q : T_equilibrium) (gd : genData) (f g : nat -> R) (rho : R) (u : nat -> R) (T : R)
  : outcome ((nat -> R) * (nat -> R) * (nat -> R) * R) :=
  let L := gd_L gd in let cfg := gd_cfg gd in
  obind (eq_calc q L (gd_gamma_ss gd) rho u T) (fun feq =>
  let geq := calculateGeqFromFeq gd T feq in
  let fNeq p := f p - feq p in
  let gNeq p := g p - geq p in
  let fStar := if cc_prandtl_set cfg then calculateFStar L (centeredHeatFluxTensor L u fNeq) else fun _ => 0 in
  let gStar := if cc_prandtl_set cfg then calculateGStar L T (centeredMomentumFlux L u gNeq) else fun _ => 0 in
  let sutherland_factor := if cc_sutherland cfg then Rpower (T / (85/100)) (7/10) else 1 in
  let visc_tau := (gd_tau gd - 1/2) * sutherland_factor / (T * rho) + 1/2 in
  let prandtl_tau := (visc_tau - 1/2) / cc_prandtl cfg + 1/2 in
  let visc_omega := 1 / visc_tau in
  let prandtl_omega := 1 / prandtl_tau in
  let prandtl_diff := visc_omega - prandtl_omega in
  Ok (fun p => f p - (visc_omega * fNeq p - prandtl_diff * fStar p),
      fun p => g p - (visc_omega * gNeq p - prandtl_diff * gStar p),
      feq, knudsenEstimate L f feq)).

Record node_out_g := { ng_f : nat -> R; ng_g : nat -> R; ng_rho : R; ng_u : nat -> R; ng_T : R; ng_mask : R }.

(** CollisionOperator.h:153-216: the loop body of the compressible collideAll.  Only
    BGKCollision has relaxWithG, so it is the only collision class here. *)
Definition collide_node_g (q : T_equilibrium) (gd : genData) (init : bool)
    (f g u_raw : nat -> R) : outcome node_out_g :=
  let L := gd_L gd in
  obind (calculateDensity (st_Q L) f) (fun rho =>
  let velocity := calculateVelocity L f rho in
  let T := calculateTemperature gd f g velocity rho in
  obind
    (if init then Ok (u_raw, fun j => u_raw j / gd_scaling gd)
     else
       let u_raw1 j := velocity j * gd_scaling gd in
       match gd_force gd with
       | None => Ok (u_raw1, velocity)
       | Some F =>
           obind (applyMacroscopicForces gd F rho u_raw1) (fun u_raw2 =>
           obind (applyForces gd F rho velocity) (fun velocity2 => Ok (u_raw2, velocity2)))
       end)
    (fun uv =>
  obind (relaxWithG q gd f g rho (snd uv) T) (fun r =>
  let '(f1, g1, feq, mask) := r in
  match gd_force gd with
  | None => Ok {| ng_f := f1; ng_g := g1; ng_rho := rho; ng_u := fst uv; ng_T := T; ng_mask := mask |}
  | Some F =>
      obind (postCollisionApplyForces q gd F rho T (snd uv) (fst uv) f1 feq) (fun fu =>
      Ok {| ng_f := fst fu; ng_g := g1; ng_rho := rho; ng_u := snd fu; ng_T := T; ng_mask := mask |})
  end))).
