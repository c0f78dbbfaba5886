(** C65-C73: the collision objects of the initialisation. *)
From Verif Require Import Prelude ModelStencils SpecStencils SpecCollision ModelConfigNames ModelEquilibria ModelCollision SpecSetup ProofCollideAll ProofPhysical
  ModelOldCollision SpecOldCollision ProofOldCollision ProofOldNode ProofOldNode2 ProofOldForce ProofOldLoop ProofOldMore ProofOldRefuted ProofOldRefuted2 ProofOldRefuted3 ProofOldState ProofOldExamples.
Local Open Scope R_scope.

(** ** C65: the equilibrium initialisation puts the given densities and velocities into the populations. *)
Theorem C65_equilibrium_partial : forall c t s nodes x x', closed_form t = true -> s <> 0 -> c <> BGKStandardTransformed -> NoDup nodes ->
  init_equilibrium c (stencil_of t s) nodes x = Ok x' ->
  fl_rho x' = fl_rho x /\ fl_u x' = fl_u x /\
  (forall n, In n nodes -> holds (stencil_of t s) (fl_rho x n) (fl_u x n) (fl_f x' n)) /\
  (forall n, ~ In n nodes -> untouched x x' n).
Proof. exact equilibrium_holds. Qed.
Print Assumptions C65_equilibrium_partial.
Example C65_equilibrium_partial_ex : exists x', init_equilibrium MRTStandard (D2Q9 1) [0%nat; 1%nat] two_densities = Ok x' /\ mass (D2Q9 1) (fl_f x' 1%nat) = 2.
Proof.
  destruct (init_equilibrium_runs MRTStandard (D2Q9 1) [0%nat; 1%nat] two_densities) as [x' E].
  { intros [|n] _; apply asserts_ok; cbn; unfold zero; lra. }
  exists x'. split; [exact E|].
  destruct (C65_equilibrium_partial MRTStandard Stencil_D2Q9 1 [0%nat; 1%nat] two_densities x') as (_ & _ & H & _); try reflexivity; try discriminate; try lra; try exact E.
  - repeat constructor; cbn; lia.
  - destruct (H 1%nat) as [H1 _]; [cbn; tauto|exact H1].
Qed.

(** It succeeds for positive densities and velocities below 10^15. *)
Theorem C65_succeeds : forall c st nodes x,
  (forall n, In n nodes -> 0 < fl_rho x n /\ fl_u x n 0%nat < 10^15 /\ fl_u x n 1%nat < 10^15) ->
  exists x', init_equilibrium c st nodes x = Ok x'.
Proof. intros c st nodes x H. apply init_equilibrium_runs. intros n Hn. destruct (H n Hn) as (A & B & C). exact (asserts_ok _ _ A B C). Qed.
Print Assumptions C65_succeeds.
Example C65_succeeds_ex : forall n, In n [0%nat; 1%nat] -> 0 < fl_rho two_densities n /\ fl_u two_densities n 0%nat < 10^15 /\ fl_u two_densities n 1%nat < 10^15.
Proof. intros [|n] _; cbn; unfold zero; repeat split; lra. Qed.

(** With BGKStandardTransformed the sum of the populations is the density minus one. *)
Theorem C65_transformed_refuted : exists x x', init_equilibrium BGKStandardTransformed (stencil_of Stencil_D2Q9 1) [0%nat] x = Ok x' /\
  ~ holds (stencil_of Stencil_D2Q9 1) (fl_rho x 0%nat) (fl_u x 0%nat) (fl_f x' 0%nat).
Proof.
  destruct (init_equilibrium_runs BGKStandardTransformed (stencil_of Stencil_D2Q9 1) [0%nat] two_densities) as [x' E].
  { intros [|n] _; apply asserts_ok; cbn; unfold zero; lra. }
  exists two_densities, x'. split; [exact E|]. intros [H _].
  destruct (init_equilibrium_ok _ _ _ _ _ (NoDup_cons 0%nat (@in_nil nat 0%nat) (NoDup_nil nat)) E) as (_ & _ & Hin & _).
  specialize (Hin 0%nat (or_introl eq_refl)). unfold getEquilibriumDistributions in Hin. destruct (eq_asserts _ _); [|discriminate].
  assert (F : fl_f x' 0%nat = old_eq BGKStandardTransformed (stencil_of Stencil_D2Q9 1) 1 zero) by (injection Hin; intros <-; reflexivity).
  rewrite F in H. rewrite (old_eq_mass Stencil_D2Q9 1 eq_refl R1_neq_R0) in H. cbn [eq_mass two_densities fl_rho] in H. lra.
Qed.
Print Assumptions C65_transformed_refuted.

(** ** C66: collideAll keeps mass and momentum at every node and stores density and velocity. *)
Theorem C66_conserves_partial : forall c m nodes x x', conserving c m -> om_s m <> 0 -> NoDup nodes -> old_collideAll c m false nodes x = Ok x' ->
  let st := stencil_of (om_t m) (om_s m) in
  (forall n, In n nodes -> conserves st (fl_f x n) (fl_f x' n) /\ fl_rho x' n = density_of c st (fl_f x n) /\
     forall a, (a < st_D st)%nat -> fl_u x' n a = momentum st (fl_f x n) a / density_of c st (fl_f x n)) /\
  (forall n, ~ In n nodes -> untouched x x' n).
Proof. exact all_conserve. Qed.
Print Assumptions C66_conserves_partial.
Example C66_conserves_partial_ex : conserving MRTStandard (unit_model Stencil_D2Q9) /\
  exists x', old_collideAll MRTStandard (unit_model Stencil_D2Q9) false [0%nat] {| fl_f := fun _ => lump; fl_rho := fun _ => 1; fl_u := fun _ => zero |} = Ok x'.
Proof.
  split; [reflexivity|]. destruct mrt_standard_runs as [o Ho]. unfold old_collideAll. cbn [old_supported unit_model old_new om_t old_loop fl_rho fl_f fl_u].
  fold (old_new Stencil_D2Q9 1 (1/2) 1). fold (unit_model Stencil_D2Q9). rewrite Ho. eexists; reflexivity.
Qed.

(** BGKIncompressible, BGKStandardTransformed on other stencils, MRTEntropic on D3Q19 do not. *)
Theorem C66_incompressible_refuted : exists m f o, make_old BGKIncompressible Stencil_D2Q9 1 (1/6) 1 = Ok m /\
  old_node BGKIncompressible m false 1 f zero = Ok o /\ mass (D2Q9 1) (no_f o) <> mass (D2Q9 1) f.
Proof.
  destruct incompressible_mass as (o & A & B & C). exists (unit_model Stencil_D2Q9), lump, o.
  split; [apply make_unit; [exact I|tauto]|]. split; [exact A|]. rewrite B, C. lra.
Qed.
Print Assumptions C66_incompressible_refuted.

Theorem C66_transformed_refuted : exists m f o, make_old BGKStandardTransformed Stencil_D3Q19 1 (1/6) 1 = Ok m /\
  old_node BGKStandardTransformed m false 1 f zero = Ok o /\ mass (D3Q19 1) (no_f o) <> mass (D3Q19 1) f.
Proof.
  destruct transformed_mass as (o & A & B & C). exists (unit_model Stencil_D3Q19), weights19, o.
  split; [apply make_unit; [exact I|tauto]|]. split; [exact A|]. rewrite B, C. lra.
Qed.
Print Assumptions C66_transformed_refuted.

Theorem C66_entropic_refuted : exists m f o, make_old MRTEntropic Stencil_D3Q19 1 (1/6) 1 = Ok m /\
  old_node MRTEntropic m false 1 f zero = Ok o /\ momentum (D3Q19 1) (no_f o) 0 <> momentum (D3Q19 1) f 0.
Proof.
  destruct entropic_momentum as (o & A & B & C). exists (unit_model Stencil_D3Q19), half19, o.
  split; [apply make_unit; [exact I|tauto]|]. split; [exact A|]. rewrite B, C. lra.
Qed.
Print Assumptions C66_entropic_refuted.

(** ** C67: populations set to equilibrium are not changed by the collision. *)
Theorem C67_fixed_partial : forall c m nodes x0 x, (forall n, In n nodes -> fixing c m (fl_rho x0 n)) -> om_s m <> 0 -> old_supported c (om_t m) = true -> NoDup nodes ->
  (forall n, In n nodes -> 1 / 10^10 <= fl_rho x0 n) -> init_equilibrium c (stencil_of (om_t m) (om_s m)) nodes x0 = Ok x ->
  exists x', old_collideAll c m false nodes x = Ok x' /\
    (forall n, In n nodes -> same_populations (stencil_of (om_t m) (om_s m)) (fl_f x n) (fl_f x' n) /\ fl_rho x' n = fl_rho x0 n /\
       forall a, (a < st_D (stencil_of (om_t m) (om_s m)))%nat -> fl_u x' n a = fl_u x0 n a) /\
    (forall n, ~ In n nodes -> untouched x x' n).
Proof. exact all_fixed. Qed.
Print Assumptions C67_fixed_partial.
Example C67_fixed_partial_ex : forall n, In n [0%nat; 1%nat] -> fixing BGKRegularized (unit_model Stencil_D2Q9) (fl_rho two_densities n) /\ 1 / 10^10 <= fl_rho two_densities n.
Proof. intros [|n] _; (split; [reflexivity|cbn; lra]). Qed.

Theorem C67_mrt_refuted : forall c, c = MRTStandard \/ c = MRTEntropic -> exists m f o i, make_old c Stencil_D2Q9 1 (1/6) 1 = Ok m /\
  getEquilibriumDistributions c (D2Q9 1) 2 drift = Ok f /\ old_node c m false 2 f zero = Ok o /\ (i < 9)%nat /\ no_f o i <> f i.
Proof.
  intros c [-> | ->].
  - destruct mrt_standard_moves as (o & A & B). exists (unit_model Stencil_D2Q9), (old_eq MRTStandard (D2Q9 1) 2 drift), o, 0%nat.
    split; [apply make_unit; [exact I|tauto]|]. split; [apply drift_eq|]. split; [exact A|]. split; [lia|exact B].
  - destruct mrt_entropic_moves as (o & A & B). exists (unit_model Stencil_D2Q9), (old_eq MRTEntropic (D2Q9 1) 2 drift), o, 1%nat.
    split; [apply make_unit; [exact I|tauto]|]. split; [apply drift_eq|]. split; [exact A|]. split; [lia|exact B].
Qed.
Print Assumptions C67_mrt_refuted.

Theorem C67_incompressible_refuted : exists m f o, make_old BGKIncompressible Stencil_D2Q9 1 (1/6) 1 = Ok m /\
  getEquilibriumDistributions BGKIncompressible (D2Q9 1) 2 zero = Ok f /\ old_node BGKIncompressible m false 2 f zero = Ok o /\ no_f o 0%nat <> f 0%nat.
Proof.
  destruct incompressible_moves as (o & A & B). exists (unit_model Stencil_D2Q9), (old_eq BGKIncompressible (D2Q9 1) 2 zero), o.
  split; [apply make_unit; [exact I|tauto]|]. split; [apply equilibrium_ok; unfold zero; lra|]. split; [exact A|exact B].
Qed.
Print Assumptions C67_incompressible_refuted.

Theorem C67_regularized_refuted : exists m f o, make_old BGKRegularized Stencil_D3Q19 1 (1/3) 1 = Ok m /\
  getEquilibriumDistributions BGKRegularized (D3Q19 1) 1 zero = Ok f /\ old_node BGKRegularized m false 1 f zero = Ok o /\ ~ same_populations (D3Q19 1) f (no_f o).
Proof.
  destruct regularized_moves_3d as (o & A & B). exists (tau1_model Stencil_D3Q19), (old_eq BGKRegularized (D3Q19 1) 1 zero), o.
  split; [apply make_tau1; [exact I|tauto]|]. split; [apply equilibrium_ok; unfold zero; lra|]. split; [exact A|exact B].
Qed.
Print Assumptions C67_regularized_refuted.

(** ** C68: the regularized collision reduces the stress by the factor 1 + prefactor. *)
Theorem C68_stress_partial : forall m rho_old f u o, om_s m = 1 -> om_t m = Stencil_D2Q9 -> old_node BGKRegularized m false rho_old f u = Ok o ->
  let st := stencil_of (om_t m) (om_s m) in
  forall a b, (a < st_D st)%nat -> (b < st_D st)%nat -> stress st (no_f o) a b = (1 + om_prefactor m) * stress st f a b.
Proof.
  intros m rho_old f u o Hs Ht H. cbv zeta. intros a b Ha Hb. assert (Hs0 : om_s m <> 0) by lra.
  rewrite (regularized_stress _ _ _ _ _ Hs0 Ht H a b Ha Hb), Hs. field.
Qed.
Print Assumptions C68_stress_partial.
Example C68_stress_partial_ex : exists o, old_node BGKRegularized (tau1_model Stencil_D2Q9) false 1 lump zero = Ok o /\ stress (D2Q9 1) lump 0 0 = -2/3.
Proof. exact regularized_example. Qed.

(** In general with a factor that depends on the scaling, and on D3Q19 with the whole momentum flux. *)
Theorem C68_scaled : forall m rho_old f u o, om_s m <> 0 -> om_t m = Stencil_D2Q9 -> old_node BGKRegularized m false rho_old f u = Ok o ->
  let st := stencil_of (om_t m) (om_s m) in
  forall a b, (a < st_D st)%nat -> (b < st_D st)%nat -> stress st (no_f o) a b = (1 + om_prefactor m) / (om_s m * om_s m) * stress st f a b.
Proof. exact regularized_stress. Qed.
Print Assumptions C68_scaled.
Example C68_scaled_ex : exists o, old_node BGKRegularized (tau1_model Stencil_D2Q9) false 1 lump zero = Ok o /\ stress (D2Q9 1) lump 0 0 = -2/3.
Proof. exact regularized_example. Qed.

Theorem C68_scaled_refuted : exists m f o, make_old BGKRegularized Stencil_D2Q9 2 (4/3) 1 = Ok m /\ old_node BGKRegularized m false 1 f zero = Ok o /\
  stress (D2Q9 2) (no_f o) 0 0 <> (1 + om_prefactor m) * stress (D2Q9 2) f 0 0.
Proof. destruct regularized_stress_scaled as (m & o & H). exists m, lump, o. exact H. Qed.
Print Assumptions C68_scaled_refuted.

Theorem C68_three_dimensions : forall m rho_old f u o, om_s m <> 0 -> om_t m = Stencil_D3Q19 -> om_forceType m = NO_FORCING -> old_node BGKRegularized m false rho_old f u = Ok o ->
  let st := stencil_of (om_t m) (om_s m) in
  forall a b, (a < st_D st)%nat -> (b < st_D st)%nat -> stress st (no_f o) a b = (1 + om_prefactor m) * moment2 st f a b.
Proof. exact regularized_stress_3d. Qed.
Print Assumptions C68_three_dimensions.
Example C68_three_dimensions_ex : exists o, old_node BGKRegularized (tau1_model Stencil_D3Q19) false 1 (old_eq BGKRegularized (D3Q19 1) 1 zero) zero = Ok o.
Proof. destruct regularized_moves_3d as (o & H & _). exists o. exact H. Qed.

(** ** C69: a force changes the momentum by force times time step and keeps the mass. *)
Theorem C69_force_partial : forall t s nu dt m ft F rho_old f u o, make_old BGKStandard t s nu dt = Ok m -> s <> 0 -> t = Stencil_D2Q9 -> ft <> NO_FORCING ->
  old_node BGKStandard (with_force m ft F) false rho_old f u = Ok o ->
  let st := stencil_of t s in
  (forall a, (a < st_D st)%nat -> momentum st (no_f o) a = momentum st f a + dt * F a) /\
  (forall a, (a < st_D st)%nat -> no_u o a = (momentum st f a + dt * F a / 2) / mass st f) /\
  (s = 1 \/ ft = SHIFTING_VELOCITY -> mass st (no_f o) = mass st f).
Proof. exact made_force. Qed.
Print Assumptions C69_force_partial.
Example C69_force_partial_ex : make_old BGKStandard Stencil_D2Q9 2 (2/3) 1 = Ok (old_new Stencil_D2Q9 2 (1/2) 1) /\
  exists o, old_node BGKStandard (with_force (old_new Stencil_D2Q9 2 (1/2) 1) GUO push) false 1 lump zero = Ok o.
Proof. split; [exact make_scaled|]. destruct (forced_mass_scaled GUO) as (o & H & _); [tauto|]. exists o. exact H. Qed.

Theorem C69_mass_refuted : forall ft, ft = EXACT_DIFFERENCE \/ ft = GUO -> exists m f o, make_old BGKStandard Stencil_D2Q9 2 (2/3) 1 = Ok m /\
  old_node BGKStandard (with_force m ft push) false 1 f zero = Ok o /\ mass (D2Q9 2) (no_f o) <> mass (D2Q9 2) f.
Proof.
  intros ft H. destruct (forced_mass_scaled ft H) as (o & A & B & C). exists (old_new Stencil_D2Q9 2 (1/2) 1), lump, o.
  split; [exact make_scaled|]. split; [exact A|]. lra.
Qed.
Print Assumptions C69_mass_refuted.

Theorem C69_three_dimensions_partial : forall t s nu dt m ft F rho_old f u o, make_old BGKStandard t s nu dt = Ok m -> s <> 0 -> t = Stencil_D3Q19 ->
  old_node BGKStandard (with_force m ft F) false rho_old f u = Ok o ->
  let st := stencil_of t s in
  mass st (no_f o) = mass st f /\
  forall a, (a < st_D st)%nat -> momentum st (no_f o) a = momentum st f a +
    match ft with SHIFTING_VELOCITY => dt * F a | GUO => - om_prefactor m / 2 * (dt * F a) | _ => 0 end.
Proof. exact made_force_3d. Qed.
Print Assumptions C69_three_dimensions_partial.
Example C69_three_dimensions_partial_ex : make_old BGKStandard Stencil_D3Q19 1 (1/6) 1 = Ok (unit_model Stencil_D3Q19) /\
  exists o, old_node BGKStandard (with_force (unit_model Stencil_D3Q19) GUO push) false 1 half19 zero = Ok o.
Proof. split; [apply make_unit; [exact I|tauto]|]. destruct (forced_momentum_lost GUO) as (o & H & _); [tauto|]. exists o. exact H. Qed.

Theorem C69_three_dimensions_refuted : forall ft, ft = EXACT_DIFFERENCE \/ ft = GUO -> exists m f o, make_old BGKStandard Stencil_D3Q19 1 (1/6) 1 = Ok m /\
  old_node BGKStandard (with_force m ft push) false 1 f zero = Ok o /\ momentum (D3Q19 1) (no_f o) 0 <> momentum (D3Q19 1) f 0 + 1 * push 0%nat.
Proof.
  intros ft H. destruct (forced_momentum_lost ft H) as (o & A & B). exists (unit_model Stencil_D3Q19), half19, o.
  split; [apply make_unit; [exact I|tauto]|]. split; [exact A|exact B].
Qed.
Print Assumptions C69_three_dimensions_refuted.

(** All other classes and stencils ignore the force. *)
Theorem C69_ignored : forall c m ft F init rho_old f u, uses_force c (om_t m) = false ->
  old_node c (with_force m ft F) init rho_old f u = old_node c m init rho_old f u.
Proof. exact force_ignored. Qed.
Print Assumptions C69_ignored.
Example C69_ignored_ex : uses_force BGKStandard Stencil_D3Q15 = false /\ uses_force MRTStandard Stencil_D2Q9 = false.
Proof. split; reflexivity. Qed.

(** ** C70: the iterative initialisation ends, keeps the prescribed velocity and finds densities that belong to the populations. *)
Theorem C70_terminates : forall c m nodes stream target N s, init_iterative c m nodes stream target N (N + 2) s <> None.
Proof. exact init_terminates. Qed.
Print Assumptions C70_terminates.

Theorem C70_velocity : forall c m nodes stream target N fuel s s' k, NoDup nodes -> init_iterative c m nodes stream target N fuel s = Some (Ok (s', k)) ->
  (k <= N + 1)%nat /\ forall n, fl_u s' n = fl_u s n.
Proof. exact init_velocity. Qed.
Print Assumptions C70_velocity.
Example C70_velocity_ex : exists s', init_iterative BGKStandard (unit_model Stencil_D2Q9) [0%nat; 1%nat] line_stream (1 / 10^7) 1 3 two_densities = Some (Ok (s', 2%nat)).
Proof. exact two_iterations. Qed.

Theorem C70_density_partial : forall c m nodes stream target N fuel s s' k, init_class c m -> closed_form (om_t m) = true -> om_s m <> 0 ->
  NoDup nodes -> init_iterative c m nodes stream target N fuel s = Some (Ok (s', k)) ->
  forall n, In n nodes -> mass (stencil_of (om_t m) (om_s m)) (fl_f s' n) = fl_rho s' n.
Proof. exact init_density. Qed.
Print Assumptions C70_density_partial.
Example C70_density_partial_ex : init_class BGKStandard (unit_model Stencil_D2Q9) /\ exists s', init_iterative BGKStandard (unit_model Stencil_D2Q9) [0%nat; 1%nat] line_stream (1 / 10^7) 1 3 two_densities = Some (Ok (s', 2%nat)).
Proof. split; [left; reflexivity|exact two_iterations]. Qed.

(** Each collision brings the velocity of the populations closer to the prescribed one; the regularized one puts it there. *)
Theorem C70_step_partial : forall c t s nu dt m rho_old f u o, make_old c t s nu dt = Ok m -> init_class c m -> closed_form t = true -> s <> 0 ->
  old_node c m true rho_old f u = Ok o ->
  let st := stencil_of t s in
  mass st (no_f o) = mass st f /\ no_rho o = mass st f /\ Rabs (1 + om_prefactor m) < 1 /\
  forall a, (a < st_D st)%nat ->
    momentum st (no_f o) a - mass st (no_f o) * u a =
    match c with BGKRegularized => 0 | _ => (1 + om_prefactor m) * (momentum st f a - mass st f * u a) end.
Proof. exact init_step_made. Qed.
Print Assumptions C70_step_partial.
Example C70_step_partial_ex : make_old BGKStandard Stencil_D2Q9 1 (1/6) 1 = Ok (unit_model Stencil_D2Q9) /\ init_class BGKStandard (unit_model Stencil_D2Q9) /\
  exists o, old_node BGKStandard (unit_model Stencil_D2Q9) true 1 lump drift = Ok o.
Proof. exact init_step_example. Qed.

(** One iteration more than configured. *)
Theorem C70_count_refuted : exists m stream s s' k, make_old BGKStandard Stencil_D2Q9 1 (1/6) 1 = Ok m /\
  init_iterative BGKStandard m [0%nat; 1%nat] stream (1 / 10^7) 1 3 s = Some (Ok (s', k)) /\ ~ (k <= 1)%nat.
Proof.
  destruct two_iterations as [s' H]. exists (unit_model Stencil_D2Q9), line_stream, two_densities, s', 2%nat.
  split; [apply make_unit; [exact I|tauto]|]. split; [exact H|lia].
Qed.
Print Assumptions C70_count_refuted.

(** The MRT classes do not look at the prescribed velocity. *)
Theorem C70_mrt_ignores_velocity : forall c m rho_old f u u' o, c = MRTStandard \/ c = MRTEntropic -> old_node c m true rho_old f u = Ok o ->
  exists o', old_node c m true rho_old f u' = Ok o' /\ no_f o' = no_f o /\ no_rho o' = no_rho o.
Proof. exact mrt_ignores_velocity. Qed.
Print Assumptions C70_mrt_ignores_velocity.
Theorem C70_mrt_refuted : exists m f u o, make_old MRTStandard Stencil_D2Q9 1 (1/6) 1 = Ok m /\ old_node MRTStandard m true 2 f u = Ok o /\
  momentum (D2Q9 1) f 0 = 0 /\ momentum (D2Q9 1) (no_f o) 0 = 0 /\ no_rho o * u 0%nat <> 0.
Proof.
  destruct mrt_init_momentum as (o & A & B & C). exists (unit_model Stencil_D2Q9), lump, drift, o.
  split; [apply make_unit; [exact I|tauto]|]. split; [exact A|]. split; [exact lump_momentum|]. split; [exact B|exact C].
Qed.
Print Assumptions C70_mrt_refuted.
Example C70_mrt_ignores_velocity_ex : exists o, old_node MRTStandard (unit_model Stencil_D2Q9) true 2 lump drift = Ok o.
Proof. destruct mrt_init_momentum as (o & A & _). exists o. exact A. Qed.

(** The three-dimensional regularized collision uses velocities that were never set. *)
Theorem C70_regularized_undefined : forall m n rest stream target N fuel s s0, om_t m = Stencil_D3Q19 -> target < 1000000000 ->
  init_equilibrium BGKRegularized (stencil_of (om_t m) (om_s m)) (n :: rest) s = Ok s0 ->
  1 / 10^10 <= mass (stencil_of (om_t m) (om_s m)) (stream (fl_f s0) n) ->
  init_iterative BGKRegularized m (n :: rest) stream target N (S fuel) s = Some UB.
Proof. exact init_iterative_ub. Qed.
Print Assumptions C70_regularized_undefined.
Example C70_regularized_undefined_ex : exists s0, init_equilibrium BGKRegularized (D3Q19 1) [0%nat] two_densities = Ok s0 /\ mass (D3Q19 1) (fl_f s0 0%nat) = 1.
Proof. exact undefined_example. Qed.

(** Exact difference and Guo forces keep acting and move the velocity away. *)
Theorem C70_forces : forall m rho_old f u o, om_t m = Stencil_D2Q9 -> om_s m <> 0 -> old_node BGKStandard m true rho_old f u = Ok o ->
  let st := stencil_of (om_t m) (om_s m) in
  forall a, (a < st_D st)%nat -> momentum st (no_f o) a - mass st f * u a = (1 + om_prefactor m) * (momentum st f a - mass st f * u a) +
    match om_forceType m with EXACT_DIFFERENCE => om_dt m * om_F m a | GUO => (1 + om_prefactor m / 2) * (om_dt m * om_F m a) | _ => 0 end.
Proof. exact init_forced. Qed.
Print Assumptions C70_forces.
Example C70_forces_ex : exists o, old_node BGKStandard (with_force (unit_model Stencil_D2Q9) GUO push) true 1 lump drift = Ok o.
Proof. exact init_forced_example. Qed.

(** ** C71: after any changes of the time step the object is the one built with the last time step. *)
Theorem C71_time_steps : forall c t s nu dt dts m m', make_old c t s nu dt = Ok m -> s <> 0 -> set_steps m dts = Ok m' ->
  make_old c t s nu (last dts dt) = Ok m'.
Proof. exact set_steps_make. Qed.
Print Assumptions C71_time_steps.
Example C71_time_steps_ex : make_old BGKStandard Stencil_D2Q9 1 (1/6) 1 = Ok (unit_model Stencil_D2Q9) /\ exists m', set_steps (unit_model Stencil_D2Q9) [1/2; 3; 1/10] = Ok m'.
Proof.
  split; [apply make_unit; [exact I|tauto]|]. cbn [set_steps]. unfold setTimeStep.
  repeat (destruct (Rlt_dec 0 _) as [_|X]; [cbn [obind]|lra]). eexists; reflexivity.
Qed.

(** ** C72: BGKStandard and BGKSteadyState compute what the collision step of the time loop computes. *)
Theorem C72_agrees : forall c t s nu dt cfg m init rho_old f u o,
  closed_form t = true -> s <> 0 -> (c = BGKStandard \/ exists gamma, c = BGKSteadyState gamma) -> same_equilibrium c cfg ->
  make_old c t s nu dt = Ok m -> old_node c m init rho_old f u = Ok o ->
  exists o', collide_node BGKCollision (new_equilibrium c) (make_genData cfg None (stencil_of t s) s nu dt) init f u = Ok o' /\
    no_rho o' = no_rho o /\
    (forall a, (a < st_D (stencil_of t s))%nat -> no_u o' a = no_u o a) /\
    (forall i, (i < st_Q (stencil_of t s))%nat -> no_f o' i = no_f o i).
Proof. exact old_is_new. Qed.
Print Assumptions C72_agrees.
Example C72_agrees_ex : same_equilibrium BGKStandard (wcfg NO_FORCING RELAX_FULL DELLAR_D2Q9) /\ make_old BGKStandard Stencil_D2Q9 1 (1/6) 1 = Ok (unit_model Stencil_D2Q9) /\
  exists o, old_node BGKStandard (unit_model Stencil_D2Q9) true 1 lump drift = Ok o.
Proof. split; [discriminate|]. destruct init_step_example as (A & _ & B). split; [exact A|exact B]. Qed.

Theorem C72_converse : forall c t s nu dt cfg m init rho_old f u o',
  closed_form t = true -> s <> 0 -> (c = BGKStandard \/ exists gamma, c = BGKSteadyState gamma) -> same_equilibrium c cfg ->
  make_old c t s nu dt = Ok m ->
  collide_node BGKCollision (new_equilibrium c) (make_genData cfg None (stencil_of t s) s nu dt) init f u = Ok o' ->
  (no_u o' 0%nat < 10^15) -> (no_u o' 1%nat < 10^15) ->
  exists o, old_node c m init rho_old f u = Ok o.
Proof. exact new_is_old. Qed.
Print Assumptions C72_converse.
Example C72_converse_ex : exists o', collide_node BGKCollision (new_equilibrium BGKStandard) (make_genData (wcfg NO_FORCING RELAX_FULL DELLAR_D2Q9) None (stencil_of Stencil_D2Q9 1) 1 (1/6) 1) true lump drift = Ok o'.
Proof.
  destruct init_step_example as (A & _ & o & B).
  destruct (C72_agrees BGKStandard Stencil_D2Q9 1 (1/6) 1 (wcfg NO_FORCING RELAX_FULL DELLAR_D2Q9) _ true 1 lump drift o eq_refl R1_neq_R0 (or_introl eq_refl) ltac:(discriminate) A B) as (o' & H & _).
  exists o'. exact H.
Qed.

(** ** C73: the initialisation from velocity gradients keeps density and velocity and adds the viscous momentum flux. *)
Theorem C73_flux_partial : forall c t s nu tau rho g f, closed_form t = true -> s <> 0 -> c = BGKStandard \/ c = BGKStandardTransformed ->
  getTau c nu 1 (stencil_of t s) = Ok tau ->
  let st := stencil_of t s in let f' := gradient_init st tau rho [g] f in
  conserves st f f' /\
  forall a b, (a < st_D st)%nat -> (b < st_D st)%nat -> moment2 st f' a b = moment2 st f a b + viscous_flux st nu 1 rho g a b.
Proof.
  intros c t s nu tau rho g f Ht Hs Hc E. destruct (gradient_flux c t s nu 1 tau rho [g] f Ht Hs Hc E) as [A B]. split; [exact A|].
  intros a b Ha Hb. specialize (B a b Ha Hb). cbn [map fold_right] in B. cbv zeta. lra.
Qed.
Print Assumptions C73_flux_partial.
Example C73_flux_partial_ex : getTau BGKStandard (1/6) 1 (D2Q9 1) = Ok (1/2).
Proof. destruct gradient_example as [H _]. exact H. Qed.

(** For any time step and any number of cells that share the node. *)
Theorem C73_general : forall c t s nu dt tau rho visits f, closed_form t = true -> s <> 0 -> c = BGKStandard \/ c = BGKStandardTransformed ->
  getTau c nu dt (stencil_of t s) = Ok tau ->
  let st := stencil_of t s in let f' := gradient_init st tau rho visits f in
  conserves st f f' /\
  forall a b, (a < st_D st)%nat -> (b < st_D st)%nat ->
    dt * (moment2 st f' a b - moment2 st f a b) = fold_right Rplus 0 (map (fun g => viscous_flux st nu dt rho g a b) visits).
Proof. exact gradient_flux. Qed.
Print Assumptions C73_general.
Example C73_general_ex : getTau BGKStandard (1/6) 1 (D2Q9 1) = Ok (1/2) /\ viscous_flux (D2Q9 1) (1/6) 1 1 shear 0 1 = - 1/3.
Proof. exact gradient_example. Qed.

Theorem C73_time_step_refuted : exists tau, getTau BGKStandard (1/6) (1/2) (D2Q9 1) = Ok tau /\ forall f,
  moment2 (D2Q9 1) (gradient_init (D2Q9 1) tau 1 [shear] f) 0 1 <> moment2 (D2Q9 1) f 0 1 + viscous_flux (D2Q9 1) (1/6) (1/2) 1 shear 0 1.
Proof. exact gradient_time_step. Qed.
Print Assumptions C73_time_step_refuted.

Theorem C73_shared_node_refuted : exists tau, getTau BGKStandard (1/6) 1 (D2Q9 1) = Ok tau /\ forall f,
  moment2 (D2Q9 1) (gradient_init (D2Q9 1) tau 1 [shear; shear] f) 0 1 <> moment2 (D2Q9 1) f 0 1 + viscous_flux (D2Q9 1) (1/6) 1 1 shear 0 1.
Proof. exact gradient_shared. Qed.
Print Assumptions C73_shared_node_refuted.

Theorem C73_scheme_refuted : forall c, c <> BGKStandard -> c <> BGKStandardTransformed -> exists tau, getTau c (1/6) 1 (D2Q9 1) = Ok tau /\ forall f,
  moment2 (D2Q9 1) (gradient_init (D2Q9 1) tau 1 [shear] f) 0 1 <> moment2 (D2Q9 1) f 0 1 + viscous_flux (D2Q9 1) (1/6) 1 1 shear 0 1.
Proof. exact gradient_scheme. Qed.
Print Assumptions C73_scheme_refuted.
