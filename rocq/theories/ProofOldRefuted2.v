(** More witnesses: fixed points, stress and forces. *)
From Coq Require Import QArith Qreals.
From Verif Require Import Prelude StencilData MRTEntropicData ModelStencils SpecStencils SpecCollision BigSum ProofStencils
  ProofWick ModelConfigNames ModelEquilibria ModelCollision SpecSetup ProofEquilibria ProofEqMoments ProofRelax ProofCollideNode ProofCollideAll ProofFixed
  ModelOldCollision SpecOldCollision ProofOldCollision ProofOldNode ProofOldNode2 ProofOldForce ProofOldLoop ProofOldMore ProofOldRefuted.
Local Open Scope R_scope.

(** ** Fixed points *)
Definition drift : nat -> R := vec [3/10; 0].

Lemma asserts_ok rho u : 0 < rho -> u 0%nat < 10^15 -> u 1%nat < 10^15 -> eq_asserts rho u = true.
Proof. intros. unfold eq_asserts. destruct (Rlt_dec 0 rho); [|lra]. do 2 (destruct (Rlt_dec _ (10^15)); [|contradiction]). reflexivity. Qed.

Lemma equilibrium_ok c st rho u : 0 < rho -> u 0%nat < 10^15 -> u 1%nat < 10^15 -> getEquilibriumDistributions c st rho u = Ok (old_eq c st rho u).
Proof. intros. unfold getEquilibriumDistributions. rewrite asserts_ok by assumption. reflexivity. Qed.

Lemma drift_eq c : getEquilibriumDistributions c (D2Q9 1) 2 drift = Ok (old_eq c (D2Q9 1) 2 drift).
Proof. apply equilibrium_ok; unfold drift, vec; cbn [nth]; lra. Qed.

Lemma drift_moments c : standard_equilibrium c -> let mo := mrt_moments (old_eq c (D2Q9 1) 2 drift) in
  mo 0%nat = 2 /\ mo 1%nat = -173/50 /\ mo 2%nat = 73/50 /\ mo 3%nat = 3/5 /\ mo 4%nat = -3/5 /\ mo 5%nat = 0 /\ mo 6%nat = 0 /\ mo 7%nat = 9/50 /\ mo 8%nat = 0.
Proof.
  intros Hc. assert (Ec : old_eq c (D2Q9 1) 2 drift = old_eq MRTStandard (D2Q9 1) 2 drift) by (destruct c; try contradiction; reflexivity).
  rewrite Ec. unfold mrt_moments, old_eq, sp, drift. cbv zeta. repeat split; nine; lra.
Qed.

Lemma mrt_standard_moves : exists o, old_node MRTStandard (unit_model Stencil_D2Q9) false 2 (old_eq MRTStandard (D2Q9 1) 2 drift) zero = Ok o /\
  no_f o 0%nat <> old_eq MRTStandard (D2Q9 1) 2 drift 0%nat.
Proof.
  pose proof (drift_moments MRTStandard I) as E. cbv zeta in E. destruct E as (E0 & E1 & E2 & E3 & E4 & E5 & E6 & E7 & E8).
  assert (Ef : old_eq MRTStandard (D2Q9 1) 2 drift 0%nat = 173/225).
  { unfold old_eq, sp, drift. nine. lra. }
  remember (old_eq MRTStandard (D2Q9 1) 2 drift) as f eqn:Hf. clear Hf.
  cbn [old_node]. unfold node_mrt_standard, unit_model, old_new. cbn [om_t]. cbv zeta.
  assert (Es : sumf 9 f = 2) by exact E0. rewrite Es. destruct (Req_EM_T 2 0) as [X|_]; [lra|].
  eexists; split; [reflexivity|]. cbn [no_f]. rewrite Ef.
  unfold mrt_back. unfold vec at 1. cbn [nth]. rewrite E0, E1, E2, E3, E5. unfold mrt_rates, mrt_meq, MRTWeights, vec. cbn [nth om_tau]. lra.
Qed.

Lemma mrt_entropic_moves : exists o, old_node MRTEntropic (unit_model Stencil_D2Q9) false 2 (old_eq MRTEntropic (D2Q9 1) 2 drift) zero = Ok o /\
  no_f o 1%nat <> old_eq MRTEntropic (D2Q9 1) 2 drift 1%nat.
Proof.
  pose proof (drift_moments MRTEntropic I) as E. cbv zeta in E. destruct E as (E0 & E1 & E2 & E3 & E4 & E5 & E6 & E7 & E8).
  assert (Ef : old_eq MRTEntropic (D2Q9 1) 2 drift 1%nat = 217/450).
  { unfold old_eq, sp, drift. nine. lra. }
  remember (old_eq MRTEntropic (D2Q9 1) 2 drift) as f eqn:Hf. clear Hf.
  cbn [old_node]. unfold node_mrt_entropic, node_mrt_entropic_D2Q9, unit_model, old_new. cbn [om_t om_tau om_s]. cbv zeta.
  rewrite checked_ok by lra. rewrite E0, E1, E3, E5, E7, E8. destruct (Req_EM_T 2 0) as [X|_]; [lra|].
  eexists; split; [reflexivity|]. cbn [no_f]. rewrite Ef.
  unfold mrt_back, MRTWeights, vec. cbn [nth]. lra.
Qed.

Lemma incompressible_moves : exists o, old_node BGKIncompressible (unit_model Stencil_D2Q9) false 2 (old_eq BGKIncompressible (D2Q9 1) 2 zero) zero = Ok o /\
  no_f o 0%nat <> old_eq BGKIncompressible (D2Q9 1) 2 zero 0%nat.
Proof.
  set (f := old_eq BGKIncompressible (D2Q9 1) 2 zero).
  assert (Em : sumf 9 f = 2) by exact (old_eq_mass Stencil_D2Q9 1 eq_refl R1_neq_R0 BGKIncompressible 2 zero).
  assert (Ef : f 0%nat = 8/9). { unfold f, old_eq, sp, zero. nine. lra. }
  assert (Er : forall a, (a < 2)%nat -> raw_D2Q9 1 2 f a = 0).
  { intros a Ha. rewrite raw9_ok by (try assumption; lra).
    pose proof (old_eq_momentum Stencil_D2Q9 1 eq_refl R1_neq_R0 BGKIncompressible 2 zero a Ha) as Y. cbn [stencil_of] in Y. fold f in Y. rewrite Y. unfold zero. field. }
  cbn [old_node]. unfold node_incompressible, unit_model, old_new. cbn [om_t om_s om_prefactor stencil_of D2Q9 st_cs2]. rewrite Em, checked_ok by lra.
  eexists; split; [reflexivity|]. cbn [no_f]. unfold add_relaxed, feq_incompressible. unfold vec at 1. cbn [nth]. rewrite Ef, !Er by lia. lra.
Qed.

Lemma regularized_moves_3d : exists o, old_node BGKRegularized (tau1_model Stencil_D3Q19) false 1 (old_eq BGKRegularized (D3Q19 1) 1 zero) zero = Ok o /\
  ~ same_populations (D3Q19 1) (old_eq BGKRegularized (D3Q19 1) 1 zero) (no_f o).
Proof.
  set (f := old_eq BGKRegularized (D3Q19 1) 1 zero).
  assert (Em : sumf 19 f = 1) by exact (old_eq_mass Stencil_D3Q19 1 eq_refl R1_neq_R0 BGKRegularized 1 zero).
  assert (Ho : exists o, old_node BGKRegularized (tau1_model Stencil_D3Q19) false 1 f zero = Ok o).
  { cbn [old_node]. unfold node_regularized, tau1_model, old_new. cbn [om_t]. unfold node_regularized_D3Q19. rewrite Em, checked_ok by lra.
    cbn [force_velocities om_forceType]. eexists; reflexivity. }
  destruct Ho as [o Ho]. exists o. split; [exact Ho|]. intros Hsame.
  assert (Hs : om_s (tau1_model Stencil_D3Q19) <> 0) by (cbn; lra).
  pose proof (regularized_stress_3d _ _ _ _ _ Hs eq_refl eq_refl Ho 0%nat 0%nat) as X.
  cbn [tau1_model old_new om_t om_s om_prefactor stencil_of] in X.
  assert (D0 : (0 < st_D (D3Q19 1))%nat) by (cbn; lia). specialize (X D0 D0).
  assert (E2 : moment2 (D3Q19 1) f 0 0 = 1/3).
  { pose proof (eq_stress BGKRegularized Stencil_D3Q19 1 1 zero 0 0 eq_refl R1_neq_R0 I) as Y. cbn [stencil_of] in Y. fold f in Y. rewrite Y by assumption.
    unfold zero, delta. cbn [D3Q19 st_cs2 Nat.eqb]. lra. }
  assert (Ej : momentum (D3Q19 1) f 0 = 0).
  { pose proof (old_eq_momentum Stencil_D3Q19 1 eq_refl R1_neq_R0 BGKRegularized 1 zero 0 D0) as Y. cbn [stencil_of] in Y. fold f in Y. rewrite Y. unfold zero. ring. }
  assert (Es : stress (D3Q19 1) (no_f o) 0 0 = 0).
  { unfold stress. rewrite (moment2_ext _ _ _ _ _ Hsame), (mass_ext _ _ _ Hsame), (momentum_ext _ _ _ _ Hsame). rewrite E2, Ej.
    change (mass (D3Q19 1) f) with (sumf 19 f). rewrite Em. unfold delta. cbn [D3Q19 st_cs2 Nat.eqb]. lra. }
  rewrite Es, E2 in X. lra.
Qed.

(** ** Stress of the regularized collision on a stencil of scaling 2 *)
Lemma regularized_stress_scaled : exists m o, make_old BGKRegularized Stencil_D2Q9 2 (4/3) 1 = Ok m /\
  old_node BGKRegularized m false 1 lump zero = Ok o /\
  stress (D2Q9 2) (no_f o) 0 0 <> (1 + om_prefactor m) * stress (D2Q9 2) lump 0 0.
Proof.
  assert (Hm : make_old BGKRegularized Stencil_D2Q9 2 (4/3) 1 = Ok (old_new Stencil_D2Q9 2 1 1)).
  { apply make_ordinary; [exact I|lra|lra|]. cbn [stencil_of D2Q9 st_cs2]. field. }
  assert (Es : sumf 9 lump = 2) by (unfold lump; nine; lra).
  assert (Ho : exists o, old_node BGKRegularized (old_new Stencil_D2Q9 2 1 1) false 1 lump zero = Ok o).
  { cbn [old_node]. unfold node_regularized, old_new. cbn [om_t]. unfold node_regularized_D2Q9. rewrite Es, checked_ok by lra. eexists; reflexivity. }
  destruct Ho as [o Ho]. exists (old_new Stencil_D2Q9 2 1 1), o. split; [exact Hm|]. split; [exact Ho|].
  assert (Hs : om_s (old_new Stencil_D2Q9 2 1 1) <> 0) by (cbn; lra).
  pose proof (regularized_stress _ _ _ _ _ Hs eq_refl Ho 0%nat 0%nat) as X.
  cbn [old_new om_t om_s om_prefactor stencil_of] in X |- *. rewrite X by (cbn; lia).
  assert (E : stress (D2Q9 2) lump 0 0 = - 8/3).
  { unfold stress, moment2, momentum, mass, lump, delta. cbn [Nat.eqb]. nine. field. }
  rewrite E. lra.
Qed.

(** ** Forces *)
Definition push : nat -> R := vec [1; 0; 0].
Definition scaled_model (ft : ForceType) : old_model := with_force (old_new Stencil_D2Q9 2 (1/2) 1) ft push.

Lemma make_scaled : make_old BGKStandard Stencil_D2Q9 2 (2/3) 1 = Ok (old_new Stencil_D2Q9 2 (1/2) 1).
Proof. apply make_ordinary; [exact I|lra|lra|]. cbn [stencil_of D2Q9 st_cs2]. field. Qed.

Lemma forced_mass_scaled ft : ft = EXACT_DIFFERENCE \/ ft = GUO ->
  exists o, old_node BGKStandard (scaled_model ft) false 1 lump zero = Ok o /\ mass (D2Q9 2) lump = 2 /\ mass (D2Q9 2) (no_f o) < 2.
Proof.
  intros Hft. assert (Es : sumf 9 lump = 2) by (unfold lump; nine; lra).
  cbn [old_node]. unfold node_standard, scaled_model, with_force, old_new. cbn [om_t]. unfold node_standard_D2Q9.
  cbn [om_t om_s om_tau om_prefactor om_dt om_forceType om_F stencil_of D2Q9 st_cs2]. rewrite Es, checked_ok by lra.
  destruct Hft as [-> | ->]; cbn [force_velocities om_forceType om_prefactor om_dt om_F]; (eexists; split; [reflexivity|]; split; [exact Es|]); cbn [no_f].
  - assert (V : forall x, x = 29/16 -> x < 2) by (intros; lra). apply V.
    unfold mass, add_relaxed, edm_D2Q9, edm, feq_D2Q9, raw_D2Q9, plus, minus, lump, push. cbv zeta. nine. field.
  - assert (V : forall x, x = 61/32 -> x < 2) by (intros; lra). apply V.
    unfold mass, add_relaxed, guo_D2Q9, feq_D2Q9, raw_D2Q9, plus, minus, lump, push. cbv zeta. nine. field.
Qed.

Lemma forced_momentum_lost ft : ft = EXACT_DIFFERENCE \/ ft = GUO ->
  exists o, old_node BGKStandard (with_force (unit_model Stencil_D3Q19) ft push) false 1 half19 zero = Ok o /\
  momentum (D3Q19 1) (no_f o) 0 <> momentum (D3Q19 1) half19 0 + 1 * push 0%nat.
Proof.
  intros Hft. set (m := with_force (unit_model Stencil_D3Q19) ft push).
  assert (Es : sumf 19 half19 = 1). { unfold half19. cbn [sumf]. unfold vec. cbn [nth]. lra. }
  assert (Ho : exists o, old_node BGKStandard m false 1 half19 zero = Ok o).
  { cbn [old_node]. unfold node_standard, m, with_force, unit_model, old_new. cbn [om_t]. unfold node_standard_D3Q19. rewrite Es, checked_ok by lra.
    destruct (force_velocities _ _ _). eexists; reflexivity. }
  destruct Ho as [o Ho]. exists o. split; [exact Ho|].
  assert (Hs : om_s m <> 0) by (cbn; lra).
  assert (Hp : om_prefactor m <> 0) by (cbn; lra).
  destruct (forced_momentum_3d m _ _ _ _ eq_refl Hs Hp Ho) as [_ X].
  cbn [m with_force unit_model old_new om_t om_s om_dt om_F om_forceType om_prefactor stencil_of] in X. rewrite X by (cbn; lia).
  assert (Ep : push 0%nat = 1) by reflexivity.
  destruct Hft as [-> | ->]; rewrite Ep; lra.
Qed.

Lemma force_ignored c m ft F init rho_old f u : uses_force c (om_t m) = false ->
  old_node c (with_force m ft F) init rho_old f u = old_node c m init rho_old f u.
Proof.
  destruct m as [t s tau r dt ft0 F0]. cbn [om_t]. intros H.
  destruct c, t; try discriminate; reflexivity.
Qed.
