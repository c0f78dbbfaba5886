(** Concrete runs used as examples beside the theorems of PropOldCollision. *)
From Coq Require Import QArith Qreals.
From Verif Require Import Prelude StencilData ModelStencils SpecStencils SpecCollision BigSum ProofStencils ModelConfigNames ModelEquilibria ModelCollision ProofCollideAll
  ModelOldCollision SpecOldCollision ProofOldCollision ProofOldNode ProofOldNode2 ProofOldForce ProofOldLoop ProofOldMore ProofOldRefuted ProofOldRefuted2 ProofOldRefuted3 ProofOldState.
Local Open Scope R_scope.

Lemma lump_mass : sumf 9 lump = 2.
Proof. unfold lump. nine. lra. Qed.
Lemma lump_momentum : momentum (D2Q9 1) lump 0 = 0.
Proof. unfold momentum, lump. nine. lra. Qed.

Lemma mrt_standard_runs : exists o, old_node MRTStandard (unit_model Stencil_D2Q9) false 1 lump zero = Ok o.
Proof. cbn [old_node]. unfold node_mrt_standard, unit_model, old_new. cbn [om_t]. cbv zeta. rewrite lump_mass. destruct (Req_EM_T 2 0); [lra|]. eexists; reflexivity. Qed.

Lemma regularized_example : exists o, old_node BGKRegularized (tau1_model Stencil_D2Q9) false 1 lump zero = Ok o /\ stress (D2Q9 1) lump 0 0 = -2/3.
Proof.
  cbn [old_node]. unfold node_regularized, tau1_model, old_new. cbn [om_t]. unfold node_regularized_D2Q9. rewrite lump_mass, checked_ok by lra. eexists; split; [reflexivity|].
  unfold stress, moment2, momentum, mass, lump, delta. cbn [Nat.eqb]. nine. field.
Qed.

Lemma init_step_made c t s nu dt m rho_old f u o : make_old c t s nu dt = Ok m -> init_class c m -> closed_form t = true -> s <> 0 ->
  old_node c m true rho_old f u = Ok o ->
  let st := stencil_of t s in
  mass st (no_f o) = mass st f /\ no_rho o = mass st f /\ Rabs (1 + om_prefactor m) < 1 /\
  forall a, (a < st_D st)%nat ->
    momentum st (no_f o) a - mass st (no_f o) * u a =
    match c with BGKRegularized => 0 | _ => (1 + om_prefactor m) * (momentum st f a - mass st f * u a) end.
Proof.
  intros H Hi Ht Hs Ho. pose proof (make_prefactor _ _ _ _ _ _ H Hs) as Hp. destruct (make_old_inv _ _ _ _ _ _ H) as (_ & _ & Et & Es & _).
  cbv zeta. rewrite <- Et, <- Es in *. destruct (init_step c m rho_old f u o Hi Ht Hs Ho) as (A & B & C & D).
  split; [exact A|]. split; [exact B|]. split; [apply Rabs_def1; lra|]. intros a Ha.
  destruct Hi as [Hp'|[-> _]].
  - specialize (C Hp' a Ha). destruct c; cbn [plain_bgk] in Hp'; try contradiction; exact C.
  - rewrite (D eq_refl a Ha). ring.
Qed.

Lemma init_step_example : make_old BGKStandard Stencil_D2Q9 1 (1/6) 1 = Ok (unit_model Stencil_D2Q9) /\ init_class BGKStandard (unit_model Stencil_D2Q9) /\
  exists o, old_node BGKStandard (unit_model Stencil_D2Q9) true 1 lump drift = Ok o.
Proof.
  split; [apply make_unit; [exact I|tauto]|]. split; [left; reflexivity|].
  cbn [old_node]. unfold node_standard, unit_model, old_new. cbn [om_t]. unfold node_standard_D2Q9. rewrite lump_mass, checked_ok by lra. eexists; reflexivity.
Qed.

Lemma init_forced_example : exists o, old_node BGKStandard (with_force (unit_model Stencil_D2Q9) GUO push) true 1 lump drift = Ok o.
Proof. cbn [old_node]. unfold node_standard, with_force, unit_model, old_new. cbn [om_t]. unfold node_standard_D2Q9. rewrite lump_mass, checked_ok by lra. eexists; reflexivity. Qed.

Lemma undefined_example : exists s0, init_equilibrium BGKRegularized (D3Q19 1) [0%nat] two_densities = Ok s0 /\ mass (D3Q19 1) (fl_f s0 0%nat) = 1.
Proof.
  destruct (init_equilibrium_runs BGKRegularized (D3Q19 1) [0%nat] two_densities) as [x' E].
  { intros [|n] _; apply asserts_ok; cbn; unfold zero; lra. }
  exists x'. split; [exact E|].
  destruct (equilibrium_holds BGKRegularized Stencil_D3Q19 1 [0%nat] two_densities x') as (_ & _ & H & _); try reflexivity; try discriminate; try lra; try exact E.
  - repeat constructor; cbn; lia.
  - destruct (H 0%nat) as [H1 _]; [cbn; tauto|exact H1].
Qed.

(** ** Gradients *)
Definition shear (a b : nat) : R := match a, b with 0%nat, 1%nat => 1 | _, _ => 0 end.

Lemma tau_of c nu dt tau : c = BGKStandard \/ c = BGKStandardTransformed -> 0 < nu -> 0 < dt -> nu / (dt * (1/3)) = tau -> getTau c nu dt (D2Q9 1) = Ok tau.
Proof.
  intros Hc Hn Hd <-. destruct Hc as [-> | ->]; cbn [getTau]; unfold calculateRelaxationParameter;
  (destruct (Rlt_dec 0 nu); [|lra]); (destruct (Rlt_dec 0 dt); [|lra]); cbn [D2Q9 st_cs2]; f_equal; field; lra.
Qed.

Lemma gradient_example : getTau BGKStandard (1/6) 1 (D2Q9 1) = Ok (1/2) /\ viscous_flux (D2Q9 1) (1/6) 1 1 shear 0 1 = - 1/3.
Proof. split; [apply tau_of; try tauto; try lra; field|]. unfold viscous_flux, shear. cbn [D2Q9 st_cs2]. field. Qed.

Lemma shear_moment tau visits f : moment2 (D2Q9 1) (gradient_init (D2Q9 1) tau 1 visits f) 0 1
  = moment2 (D2Q9 1) f 0 1 - (tau + 1/2) * 1 * (1 * 1 / 3) * fold_right Rplus 0 (map (fun g => g 0%nat 1%nat + g 1%nat 0%nat) visits).
Proof.
  destruct (gradient_init_moments Stencil_D2Q9 1 tau 1 eq_refl R1_neq_R0 visits f) as (_ & _ & C). cbn [stencil_of] in C. rewrite C by (cbn; lia).
  cbn [D2Q9 st_cs2]. field.
Qed.

Lemma gradient_time_step : exists tau, getTau BGKStandard (1/6) (1/2) (D2Q9 1) = Ok tau /\ forall f,
  moment2 (D2Q9 1) (gradient_init (D2Q9 1) tau 1 [shear] f) 0 1 <> moment2 (D2Q9 1) f 0 1 + viscous_flux (D2Q9 1) (1/6) (1/2) 1 shear 0 1.
Proof.
  exists 1. split; [apply tau_of; try tauto; try lra; field|]. intros f. rewrite shear_moment. unfold viscous_flux, shear. cbn [map fold_right D2Q9 st_cs2]. lra.
Qed.
Lemma gradient_shared : exists tau, getTau BGKStandard (1/6) 1 (D2Q9 1) = Ok tau /\ forall f,
  moment2 (D2Q9 1) (gradient_init (D2Q9 1) tau 1 [shear; shear] f) 0 1 <> moment2 (D2Q9 1) f 0 1 + viscous_flux (D2Q9 1) (1/6) 1 1 shear 0 1.
Proof.
  exists (1/2). split; [apply tau_of; try tauto; try lra; field|]. intros f. rewrite shear_moment. unfold viscous_flux, shear. cbn [map fold_right D2Q9 st_cs2]. lra.
Qed.
Lemma gradient_scheme c : c <> BGKStandard -> c <> BGKStandardTransformed -> exists tau, getTau c (1/6) 1 (D2Q9 1) = Ok tau /\ forall f,
  moment2 (D2Q9 1) (gradient_init (D2Q9 1) tau 1 [shear] f) 0 1 <> moment2 (D2Q9 1) f 0 1 + viscous_flux (D2Q9 1) (1/6) 1 1 shear 0 1.
Proof.
  intros A B. exists 0. split; [destruct c; try congruence; reflexivity|]. intros f. rewrite shear_moment. unfold viscous_flux, shear. cbn [map fold_right D2Q9 st_cs2]. lra.
Qed.
