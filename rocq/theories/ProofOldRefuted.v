(** Witnesses against conservation, fixed points, forces and initialisation of the collision objects. *)
From Coq Require Import QArith Qreals.
From Verif Require Import Prelude StencilData MRTEntropicData ModelStencils SpecStencils SpecCollision BigSum ProofStencils
  ProofWick ModelConfigNames ModelEquilibria ModelCollision SpecSetup ProofEquilibria ProofEqMoments ProofRelax ProofCollideNode ProofCollideAll ProofFixed
  ModelOldCollision SpecOldCollision ProofOldCollision ProofOldNode ProofOldNode2 ProofOldForce ProofOldLoop ProofOldMore.
Local Open Scope R_scope.

(** The object built for scaling 1, viscosity 1/6 and time step 1: relaxation time 1/2, prefactor -1. *)
Definition unit_model (t : StencilType) : old_model := old_new t 1 (1/2) 1.
(** Viscosity 1/3: relaxation time 1, prefactor -2/3. *)
Definition tau1_model (t : StencilType) : old_model := old_new t 1 1 1.

Definition ordinary (c : old_class) : Prop := match c with BGKSteadyState _ => False | _ => True end.

Lemma make_ordinary c t s nu dt tau : ordinary c -> 0 < nu -> 0 < dt -> nu / (dt * st_cs2 (stencil_of t s)) = tau ->
  make_old c t s nu dt = Ok (old_new t s tau dt).
Proof.
  intros Hc Hn Hd Ht. unfold make_old, calculateRelaxationParameter.
  destruct (Rlt_dec 0 nu); [|lra]. destruct (Rlt_dec 0 dt); [|lra]. destruct c; try contradiction; cbn [obind]; rewrite Ht; reflexivity.
Qed.

Lemma make_unit c t : ordinary c -> t = Stencil_D2Q9 \/ t = Stencil_D3Q19 \/ t = Stencil_D3Q15 -> make_old c t 1 (1/6) 1 = Ok (unit_model t).
Proof.
  intros Hc Ht. apply make_ordinary; try assumption; try lra.
  destruct Ht as [->|[->| ->]]; cbn [stencil_of D2Q9 D3Q19 D3Q15 st_cs2]; field.
Qed.
Lemma make_tau1 c t : ordinary c -> t = Stencil_D2Q9 \/ t = Stencil_D3Q19 -> make_old c t 1 (1/3) 1 = Ok (tau1_model t).
Proof.
  intros Hc Ht. apply make_ordinary; try assumption; try lra.
  destruct Ht as [->| ->]; cbn [stencil_of D2Q9 D3Q19 st_cs2]; field.
Qed.

Definition zero : nat -> R := fun _ => 0.

(** ** Conservation *)
Definition lump : nat -> R := vec [2; 0; 0; 0; 0; 0; 0; 0; 0].

Lemma incompressible_mass : exists o, old_node BGKIncompressible (unit_model Stencil_D2Q9) false 1 lump zero = Ok o /\
  mass (D2Q9 1) lump = 2 /\ mass (D2Q9 1) (no_f o) = 10/9.
Proof.
  cbn [old_node]. unfold node_incompressible, unit_model, old_new. cbn [om_t om_s om_prefactor stencil_of D2Q9 st_cs2].
  assert (Es : sumf 9 lump = 2) by (unfold lump; nine; lra). rewrite Es, checked_ok by lra. eexists; split; [reflexivity|].
  split; [exact Es|]. cbn [no_f]. unfold mass, add_relaxed, feq_incompressible, raw_D2Q9, plus, minus, lump. cbv zeta. nine. field.
Qed.

Definition weights19 : nat -> R := fun i => st_w (D3Q19 1) i * rho0.

Lemma transformed_mass : exists o, old_node BGKStandardTransformed (unit_model Stencil_D3Q19) false 1 weights19 zero = Ok o /\
  mass (D3Q19 1) weights19 = 1 /\ mass (D3Q19 1) (no_f o) = 0.
Proof.
  pose proof (weights_mass Stencil_D3Q19 1 eq_refl) as Em. cbn [stencil_of] in Em. change (mass (D3Q19 1) weights19 = 1) in Em.
  pose proof (weights_momentum Stencil_D3Q19 1 eq_refl) as Ej. cbn [stencil_of] in Ej. change (forall a, (a < st_D (D3Q19 1))%nat -> momentum (D3Q19 1) weights19 a = 0) in Ej.
  destruct (generic_runs BGKStandardTransformed (unit_model Stencil_D3Q19) false weights19 zero) as [o Ho].
  { split; cbn [unit_model old_new om_t om_s stencil_of]; rewrite Em; [lra|].
    unfold eq_asserts. destruct (Rlt_dec 0 1); [|lra].
    rewrite !Ej by (cbn [D3Q19 st_D]; lia). destruct (Rlt_dec (0/1) (10^15)); [reflexivity|lra]. }
  exists o. split; [exact Ho|]. split; [exact Em|].
  apply generic_node in Ho. destruct Ho as (_ & _ & _ & Hf). cbn [unit_model old_new om_t om_s om_prefactor stencil_of] in Hf.
  rewrite (mass_ext _ _ _ Hf). change (D3Q19 1) with (stencil_of Stencil_D3Q19 1) at 1. rewrite relaxed_mass.
  cbn [stencil_of]. rewrite Em. pose proof (old_eq_mass Stencil_D3Q19 1 eq_refl R1_neq_R0 BGKStandardTransformed 1 (no_u o)) as E.
  cbn [stencil_of] in E. rewrite E. cbn [eq_mass]. field.
Qed.

(** Half of the mass at rest, half moving in direction 1. *)
Definition half19 : nat -> R := vec [1/2; 1/2; 0; 0; 0; 0; 0; 0; 0; 0; 0; 0; 0; 0; 0; 0; 0; 0; 0].
Definition moment19 (i : nat) : R := sumf 19 (fun j => matR MRTEntropic_tm i j * half19 j).

Ltac mat := unfold matR; cbn [nth MRTEntropic_tm MRTEntropic_invm]; unfold Q2R; cbn [QArith_base.Qnum QArith_base.Qden].

Lemma moment19_values :
  moment19 0 = 1 /\ moment19 1 = -41/2 /\ moment19 3 = 1/2 /\ moment19 5 = 0 /\ moment19 7 = 0 /\
  moment19 9 = 1 /\ moment19 11 = 0 /\ moment19 13 = 0 /\ moment19 14 = 0 /\ moment19 15 = 0.
Proof. unfold moment19, half19. cbn [sumf]. unfold vec. cbn [nth]. mat. repeat split; lra. Qed.

Definition new19 : nat -> R := vec [1; -25/4; 13/8; 1/2; -1/3; 0; 0; 0; 0; 1/2; -1/4; 0; 0; 0; 0; 0; 0; 0; 0].

Lemma entropic_momentum : exists o, old_node MRTEntropic (unit_model Stencil_D3Q19) false 1 half19 zero = Ok o /\
  momentum (D3Q19 1) half19 0 = 1/2 /\ momentum (D3Q19 1) (no_f o) 0 = 7/48.
Proof.
  cbn [old_node]. unfold node_mrt_entropic, unit_model, old_new. cbn [om_t om_s]. unfold node_mrt_entropic_D3Q19. cbv zeta.
  cbn [om_tau om_s]. rewrite checked_ok by lra.
  repeat match goal with |- context [sumf 19 (fun j => matR MRTEntropic_tm ?i j * half19 j)] =>
    change (sumf 19 (fun j => matR MRTEntropic_tm i j * half19 j)) with (moment19 i) end.
  destruct moment19_values as (E0 & E1 & E3 & E5 & E7 & E9 & E11 & E13 & E14 & E15).
  rewrite E0, E1, E3, E5, E7, E9, E11, E13, E14, E15.
  destruct (Req_EM_T 1 0) as [X|_]; [lra|]. eexists; split; [reflexivity|]. split.
  { unfold momentum, half19. cbn [D3Q19 st_Q st_e sumf]. unfold vec. cbn [nth]. lit15. lra. }
  cbn [no_f].
  match goal with |- momentum _ (fun i => sumf 19 (fun j => _ * ?n j)) _ = _ => assert (En : forall j, (j < 19)%nat -> n j = new19 j) end.
  { intros j Hj. unfold new19, vec. do 19 (destruct j as [|j]; [cbn [nth]; lra|]). lia. }
  assert (Em : forall i, (i < st_Q (D3Q19 1))%nat -> sumf 19 (fun j => matR MRTEntropic_invm i j * new19 j) = vec [5/24; 13/72; 1/72; 5/144; 5/144; 5/144; 5/144; 13/144; 1/144; 13/144; 1/144; 13/144; 1/144; 13/144; 1/144; 5/288; 5/288; 5/288; 5/288] i).
  { cbn [D3Q19 st_Q]. intros i Hi. unfold new19. cbn [sumf]. unfold vec. do 19 (destruct i as [|i]; [cbn [nth]; mat; lra|]). lia. }
  etransitivity; [apply momentum_ext; intros i Hi; etransitivity; [apply sumf_ext; intros j Hj; rewrite En by exact Hj; reflexivity|apply (Em i Hi)]|].
  unfold momentum. cbn [D3Q19 st_Q st_e sumf]. unfold vec. cbn [nth]. lit15. lra.
Qed.
