(** Properties C114-C117: the multiphase (pseudo-potential) collision. *)
From Verif Require Import Prelude StencilData MRTEntropicData ModelStencils SpecStencils SpecCollision ModelConfigNames ModelEquilibria ModelCollision
  ModelOldCollision SpecOldCollision ProofOldNode ProofOldRefuted ProofOldRefuted2 ProofDeriv
  ModelMultiphase SpecMultiphase ProofMultiphase ProofMultiphase2 ProofMultiphase3.
Local Open Scope R_scope.

(** ** C114: particles interact with the force -G psi grad psi of the chosen pseudo-potential. *)

(** The formula, for a given density gradient, is right for Shan-Chen and Sukop. *)
Theorem C114_formula_partial : forall P cs2 rho x g grad F a, pp_type P <> CARNAHAN_STARLING -> derivable_pt_lim rho x g -> grad a = g ->
  pp_force P cs2 (rho x) grad (fun _ => 0) = Some F ->
  interaction (pp_G P) (match pp_type P with SUKOP => psi_sukop | _ => psi_shan_chen end) rho x (F a).
Proof. exact force_formula. Qed.
Print Assumptions C114_formula_partial.
Example C114_formula_partial_ex : exists F, pp_force sc_par (1/3) (1 + 2) (fun _ => 1) (fun _ => 0) = Some F /\ derivable_pt_lim (fun y => 1 + y) 2 1.
Proof. eexists. split; [reflexivity|]. deriv. ring. Qed.

(** Carnahan-Starling: the derivative of the pressure is right, the gradient of psi is not. *)
Theorem C114_pressure_derivative : forall T rho, rho <> 1 -> derivable_pt_lim (pressure_CS T) rho (dp_CS T rho).
Proof. exact pressure_derivative. Qed.
Print Assumptions C114_pressure_derivative.

Theorem C114_carnahan_starling_refuted : exists P cs2 (rho : R -> R) x F, pp_type P = CARNAHAN_STARLING /\ pp_asserts P = true /\
  pp_force P cs2 (rho x) (fun _ => 1) (fun _ => 0) = Some F /\ derivable_pt_lim rho x 1 /\
  (exists F', interaction (pp_G P) (psi_CS (pp_G P) (pp_T P * cs2) cs2) rho x F') /\
  ~ interaction (pp_G P) (psi_CS (pp_G P) (pp_T P * cs2) cs2) rho x (F 0%nat).
Proof.
  destruct cs_force as (F & H1 & H2). exists cs_par, (1/3), (fun y => 1/2 + y), 0, F. split; [reflexivity|]. split.
  { unfold pp_asserts. cbn [cs_par pp_G pp_type pp_T]. destruct (Req_EM_T (-1/3) 0); [lra|]. destruct (Req_EM_T (3/26) 0); [lra|reflexivity]. }
  split; [rewrite Rplus_0_r; exact H1|]. split; [deriv; ring|]. split.
  - exists (-67/78). apply cs_interaction. reflexivity.
  - intros X. apply cs_interaction in X. rewrite H2 in X. lra.
Qed.
Print Assumptions C114_carnahan_starling_refuted.

(** A run is refused exactly for interaction strength 0, and for Carnahan-Starling with temperature 0 (with
    a viscosity for which there is a relaxation time). *)
Theorem C114_refused : forall P t s nu dt ft F tau,
  calculateRelaxationParameter BGKStandardTransformed nu dt (stencil_of t s) = Ok tau ->
  (pp_G P = 0 \/ (pp_type P = CARNAHAN_STARLING /\ pp_T P = 0) -> make_multiphase P t s nu dt ft F = Throw) /\
  (pp_G P <> 0 -> (pp_type P = CARNAHAN_STARLING -> pp_T P <> 0) -> exists m, make_multiphase P t s nu dt ft F = Ok m /\
     om_t m = t /\ om_s m = s /\ om_tau m = tau /\ om_dt m = dt).
Proof. exact multi_refused. Qed.
Print Assumptions C114_refused.
Example C114_refused_ex : exists tau, calculateRelaxationParameter BGKStandardTransformed (1/6) 1 (stencil_of Stencil_D2Q9 1) = Ok tau.
Proof. exact multi_tau. Qed.

(** The density gradient is set to zero: the collision does not depend on the pseudo-potential at all, *)
Theorem C114_no_interaction : forall P P' t s nu dt ft F m cells nodes x y y', make_multiphase P t s nu dt ft F = Ok m -> s <> 0 -> t = Stencil_D2Q9 ->
  pp_collideAll P m false cells nodes x = Ok y -> pp_collideAll P' m false cells nodes x = Ok y' -> agree y y'.
Proof. exact multi_independent. Qed.
Print Assumptions C114_no_interaction.

(** and fluid at rest in which the density changes from node to node stays at rest. *)
Theorem C114_interaction_refuted : exists P m x x', make_multiphase P Stencil_D2Q9 1 (1/6) 1 SHIFTING_VELOCITY (fun _ => 0) = Ok m /\
  pp_type P = SHAN_CHEN /\ (forall n, mass (D2Q9 1) (fl_f x n) = 1 + INR n) /\ (forall n a, (a < 2)%nat -> momentum (D2Q9 1) (fl_f x n) a = 0) /\
  pp_collideAll P m false [[0%nat; 1%nat]] [0%nat; 1%nat] x = Ok x' /\
  (forall n a, (n < 2)%nat -> (a < 2)%nat -> momentum (D2Q9 1) (fl_f x' n) a = 0) /\
  (forall y F, 0 <= y <= 1 -> interaction (pp_G P) psi_shan_chen (fun z => 1 + z) y F -> 0 < F).
Proof.
  destruct no_interaction as (x' & H1 & H2). exists sc_par, (pp_model SHIFTING_VELOCITY zero), ramp, x'.
  split; [apply make_pp|]. split; [reflexivity|]. split; [exact ramp_mass|]. split; [exact ramp_momentum|]. split; [exact H1|]. split; [exact H2|]. exact ramp_interaction.
Qed.
Print Assumptions C114_interaction_refuted.

(** ** C115: an external force changes the momentum of each node by dt F per step; the velocity is that of the middle of the step. *)
Theorem C115_force_partial : forall P t s nu dt ft F m cells nodes x x', make_multiphase P t s nu dt ft F = Ok m -> s <> 0 ->
  t = Stencil_D2Q9 -> ft = SHIFTING_VELOCITY \/ (ft = EXACT_DIFFERENCE /\ s = 1) -> NoDup (concat cells) ->
  pp_collideAll P m false cells nodes x = Ok x' ->
  let st := stencil_of t s in
  (forall n, In n (concat cells) -> fl_rho x' n = mass st (fl_f x n) /\ acts st dt F (fl_f x n) (fl_f x' n) (fl_u x' n)) /\
  (forall n, ~ In n (concat cells) -> fl_f x' n = fl_f x n /\ fl_u x' n = fl_u x n).
Proof. exact multi_acts. Qed.
Print Assumptions C115_force_partial.
Example C115_force_partial_ex : exists x', pp_collideAll sc_par (pp_model SHIFTING_VELOCITY push) false [[0%nat; 1%nat]; [2%nat]] [0%nat] ramp = Ok x'.
Proof. apply ramp_run. discriminate. Qed.

Theorem C115_succeeds : forall P t s nu dt ft F m cells nodes x, make_multiphase P t s nu dt ft F = Ok m -> s <> 0 -> t = Stencil_D2Q9 ->
  ft <> NO_FORCING -> pp_type P <> CARNAHAN_STARLING -> (forall n, In n (concat cells) -> 1 / 10^10 <= mass (stencil_of t s) (fl_f x n)) ->
  exists x', pp_collideAll P m false cells nodes x = Ok x'.
Proof. exact multi_succeeds. Qed.
Print Assumptions C115_succeeds.
Example C115_succeeds_ex : make_multiphase sc_par Stencil_D2Q9 1 (1/6) 1 GUO push = Ok (pp_model GUO push) /\ 1 / 10^10 <= mass (D2Q9 1) (fl_f ramp 0%nat).
Proof. split; [apply make_pp|]. rewrite ramp_mass. cbn [INR]. pose proof tiny_le. lra. Qed.

(** Guo's forcing: half of the force here. *)
Theorem C115_guo_refuted : exists P m F x x', make_multiphase P Stencil_D2Q9 1 (1/6) 1 GUO F = Ok m /\ F 0%nat = 1 /\
  pp_collideAll P m false [[0%nat]] [0%nat] x = Ok x' /\
  momentum (D2Q9 1) (fl_f x 0%nat) 0 = 0 /\ momentum (D2Q9 1) (fl_f x' 0%nat) 0 = 1/2.
Proof.
  destruct guo_half as (x' & H1 & H2). exists sc_par, (pp_model GUO push), push, ramp, x'. split; [apply make_pp|]. split; [reflexivity|]. split; [exact H1|].
  split; [apply ramp_momentum; lia|exact H2].
Qed.
Print Assumptions C115_guo_refuted.

(** The exact difference method on a scaled stencil changes the mass. *)
Theorem C115_scaled_refuted : exists P m F x x', make_multiphase P Stencil_D2Q9 2 (2/3) 1 EXACT_DIFFERENCE F = Ok m /\
  pp_collideAll P m false [[0%nat]] [0%nat] x = Ok x' /\ mass (D2Q9 2) (fl_f x' 0%nat) <> mass (D2Q9 2) (fl_f x 0%nat).
Proof.
  destruct scaled_mass as (x' & H1 & H2 & H3). exists sc_par, (with_force (old_new Stencil_D2Q9 2 (1/2) 1) EXACT_DIFFERENCE push), push, lump_fields, x'.
  split; [exact make_pp2|]. split; [exact H1|]. rewrite H2. exact H3.
Qed.
Print Assumptions C115_scaled_refuted.

(** On every other stencil the force has no effect: mass and momentum stay. *)
Theorem C115_other_stencils_partial : forall P t s nu dt ft F m cells nodes x x', make_multiphase P t s nu dt ft F = Ok m -> s <> 0 -> closed_form t = true ->
  t <> Stencil_D2Q9 -> NoDup nodes -> pp_collideAll P m false cells nodes x = Ok x' ->
  let st := stencil_of t s in
  forall n, In n nodes -> fl_rho x' n = mass st (fl_f x n) /\ mass st (fl_f x' n) = mass st (fl_f x n) /\
    forall a, (a < st_D st)%nat -> momentum st (fl_f x' n) a = momentum st (fl_f x n) a /\
      fl_u x' n a = momentum st (fl_f x n) a / mass st (fl_f x n).
Proof. exact multi_other. Qed.
Print Assumptions C115_other_stencils_partial.
Example C115_other_stencils_partial_ex : make_multiphase sc_par Stencil_D3Q19 1 (1/6) 1 SHIFTING_VELOCITY push = Ok other_model /\
  exists x', pp_collideAll sc_par other_model false [] [0%nat; 1%nat] other_fields = Ok x'.
Proof. split; [exact make_other|apply other_runs]. Qed.

Theorem C115_other_stencils_refuted : exists P m F x x', make_multiphase P Stencil_D3Q19 1 (1/6) 1 SHIFTING_VELOCITY F = Ok m /\ F 0%nat = 1 /\
  pp_collideAll P m false [] [0%nat; 1%nat] x = Ok x' /\ momentum (D3Q19 1) (fl_f x' 0%nat) 0 = momentum (D3Q19 1) (fl_f x 0%nat) 0.
Proof.
  destruct other_ignores as (x' & H1 & H2). exists sc_par, other_model, push, other_fields, x'. split; [exact make_other|]. split; [reflexivity|]. split; assumption.
Qed.
Print Assumptions C115_other_stencils_refuted.

(** ** C116: every node is relaxed once per step. *)

(** A node takes part as often as it occurs among the degrees of freedom of the cells. *)
Theorem C116_visits_partial : forall P s nu dt ft F m cells nodes x x', make_multiphase P Stencil_D2Q9 s nu dt ft F = Ok m -> s <> 0 ->
  ft = SHIFTING_VELOCITY \/ ft = EXACT_DIFFERENCE -> pp_collideAll P m false cells nodes x = Ok x' ->
  forall n a, (a < 2)%nat -> momentum (D2Q9 s) (fl_f x' n) a =
    momentum (D2Q9 s) (fl_f x n) a + INR (count_occ Nat.eq_dec (concat cells) n) * (dt * F a).
Proof. exact visits_gain. Qed.
Print Assumptions C116_visits_partial.
Example C116_visits_partial_ex : exists x', pp_collideAll sc_par (pp_model EXACT_DIFFERENCE push) false [[0%nat; 1%nat]; [1%nat; 2%nat]] [] ramp = Ok x'.
Proof. apply ramp_run. discriminate. Qed.

Theorem C116_shared_refuted : exists P m F x x', make_multiphase P Stencil_D2Q9 1 (1/6) 1 SHIFTING_VELOCITY F = Ok m /\ F 0%nat = 1 /\
  (forall n, momentum (D2Q9 1) (fl_f x n) 0 = 0) /\
  pp_collideAll P m false [[0%nat; 1%nat]; [1%nat; 2%nat]] [0%nat; 1%nat; 2%nat] x = Ok x' /\
  momentum (D2Q9 1) (fl_f x' 0%nat) 0 = 1 /\ momentum (D2Q9 1) (fl_f x' 1%nat) 0 = 2.
Proof.
  destruct (shared_twice SHIFTING_VELOCITY (or_introl eq_refl)) as (x' & H1 & H2 & H3).
  exists sc_par, (pp_model SHIFTING_VELOCITY push), push, ramp, x'. split; [apply make_pp|]. split; [reflexivity|].
  split; [intros n; apply ramp_momentum; lia|]. split; [exact H1|]. split; assumption.
Qed.
Print Assumptions C116_shared_refuted.

(** ** C117: during the initialisation the velocity is kept and the populations relax towards it. *)
Theorem C117_other_stencils_partial : forall P t s nu dt ft F m cells nodes x x', make_multiphase P t s nu dt ft F = Ok m -> s <> 0 -> closed_form t = true ->
  t <> Stencil_D2Q9 -> NoDup nodes -> pp_collideAll P m true cells nodes x = Ok x' ->
  let st := stencil_of t s in
  forall n, In n nodes -> fl_u x' n = fl_u x n /\ fl_rho x' n = mass st (fl_f x n) /\ mass st (fl_f x' n) = mass st (fl_f x n) /\
    forall a, (a < st_D st)%nat -> Rabs (momentum st (fl_f x' n) a - mass st (fl_f x' n) * fl_u x n a)
      <= Rabs (momentum st (fl_f x n) a - mass st (fl_f x n) * fl_u x n a).
Proof. exact multi_other_init. Qed.
Print Assumptions C117_other_stencils_partial.
Example C117_other_stencils_partial_ex : exists x', pp_collideAll sc_par other_model true [] [0%nat; 1%nat] other_fields = Ok x'.
Proof. apply other_runs. Qed.

(** On D2Q9 the velocity that enters the equilibrium has no value. *)
Theorem C117_undefined : forall P t s nu dt ft F m cells nodes x n rest, make_multiphase P t s nu dt ft F = Ok m -> s <> 0 -> t = Stencil_D2Q9 ->
  ft <> NO_FORCING -> concat cells = n :: rest -> 1 / 10^10 <= mass (stencil_of t s) (fl_f x n) ->
  pp_collideAll P m true cells nodes x = UB.
Proof. exact multi_init_undefined. Qed.
Print Assumptions C117_undefined.

Theorem C117_initialisation_refuted : exists P m x, make_multiphase P Stencil_D2Q9 1 (1/6) 1 SHIFTING_VELOCITY (fun _ => 0) = Ok m /\
  (forall n, 1 <= mass (D2Q9 1) (fl_f x n)) /\ pp_collideAll P m true [[0%nat; 1%nat]] [0%nat; 1%nat] x = UB.
Proof.
  exists sc_par, (pp_model SHIFTING_VELOCITY zero), ramp. split; [apply make_pp|].
  assert (H : forall n, 1 <= mass (D2Q9 1) (fl_f ramp n)) by (intros n; rewrite ramp_mass; pose proof (pos_INR n); lra). split; [exact H|].
  apply (multi_init_undefined sc_par Stencil_D2Q9 1 (1/6) 1 SHIFTING_VELOCITY zero _ [[0%nat; 1%nat]] [0%nat; 1%nat] ramp 0%nat [1%nat] (make_pp _ _) R1_neq_R0 eq_refl).
  - discriminate.
  - reflexivity.
  - pose proof (H 0%nat). pose proof tiny_le. change (stencil_of Stencil_D2Q9 1) with (D2Q9 1). lra.
Qed.
Print Assumptions C117_initialisation_refuted.
