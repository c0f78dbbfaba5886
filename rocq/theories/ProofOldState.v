(** Conservation and fixed points for whole fields; forces and gradients for constructed objects. *)
From Verif Require Import Prelude ModelStencils SpecStencils SpecCollision BigSum ProofStencils
  ModelConfigNames ModelEquilibria ModelCollision SpecSetup ProofEquilibria ProofEqMoments ProofRelax ProofCollideNode ProofCollideAll ProofFixed
  ModelOldCollision SpecOldCollision ProofOldCollision ProofOldNode ProofOldNode2 ProofOldForce ProofOldLoop ProofOldMore.
Local Open Scope R_scope.

Lemma equilibrium_holds c t s nodes x x' : closed_form t = true -> s <> 0 -> c <> BGKStandardTransformed -> NoDup nodes ->
  init_equilibrium c (stencil_of t s) nodes x = Ok x' ->
  fl_rho x' = fl_rho x /\ fl_u x' = fl_u x /\
  (forall n, In n nodes -> holds (stencil_of t s) (fl_rho x n) (fl_u x n) (fl_f x' n)) /\
  (forall n, ~ In n nodes -> untouched x x' n).
Proof.
  intros Ht Hs Hc Nd E. destruct (init_equilibrium_ok _ _ _ _ _ Nd E) as (Er & Eu & Hin & Hout).
  split; [exact Er|]. split; [exact Eu|]. split.
  - intros n Hn. specialize (Hin n Hn). unfold getEquilibriumDistributions in Hin. destruct (eq_asserts _ _); [|discriminate].
    assert (F : fl_f x' n = old_eq c (stencil_of t s) (fl_rho x n) (fl_u x n)) by congruence. rewrite F. split.
    + rewrite old_eq_mass by assumption. destruct c; try congruence; reflexivity.
    + intros a Ha. apply old_eq_momentum; assumption.
  - intros n Hn. unfold untouched. rewrite Er, Eu. split; [apply Hout; exact Hn|split; reflexivity].
Qed.

Lemma node_conserves c m rho_old f u o : conserving c m -> om_s m <> 0 -> old_node c m false rho_old f u = Ok o ->
  let st := stencil_of (om_t m) (om_s m) in
  conserves st f (no_f o) /\ no_rho o = density_of c st f /\
  forall a, (a < st_D st)%nat -> no_u o a = momentum st f a / density_of c st f.
Proof.
  intros Hc Hs H. cbv zeta.
  assert (Hplain : plain_bgk c m -> closed_form (om_t m) = true -> density_of c (stencil_of (om_t m) (om_s m)) f = mass (stencil_of (om_t m) (om_s m)) f ->
    conserves (stencil_of (om_t m) (om_s m)) f (no_f o) /\ no_rho o = density_of c (stencil_of (om_t m) (om_s m)) f /\
    forall a, (a < st_D (stencil_of (om_t m) (om_s m)))%nat -> no_u o a = momentum (stencil_of (om_t m) (om_s m)) f a / density_of c (stencil_of (om_t m) (om_s m)) f).
  { intros Hp Ht Ed. pose proof (bgk_node _ _ _ _ _ _ _ Hp Hs H) as Rn. split.
    - refine (proj1 (relaxed_node_conserves c m f u o Ht Hs _ Rn)). intros ->. exact Hp.
    - destruct Rn as (_ & Er & Eu & _). rewrite Ed. split; assumption. }
  destruct c; cbn [conserving] in Hc; try contradiction.
  - destruct Hc as [Ht Hf]. apply Hplain; [exact Hf|exact Ht|reflexivity].
  - destruct Hc as [Ht Hf]. apply Hplain; [exact Hf|exact Ht|reflexivity].
  - destruct (transformed_conserves _ _ _ _ _ Hc Hs H) as [X Y]. split; [exact X|]. split; [exact Y|].
    destruct (transformed_node _ _ _ _ _ _ Hc Hs H) as (_ & _ & Z & _). exact Z.
  - destruct (regularized_conserves _ _ _ _ _ Hs Hc H) as [X Y]. split; [exact X|exact Y].
  - destruct (mrt_standard_conserves _ _ _ _ _ Hc H) as [X Y]. split; [exact X|exact Y].
  - destruct (mrt_entropic_conserves _ _ _ _ _ Hc H) as [X Y]. split; [exact X|exact Y].
Qed.

Lemma all_conserve c m nodes x x' : conserving c m -> om_s m <> 0 -> NoDup nodes -> old_collideAll c m false nodes x = Ok x' ->
  let st := stencil_of (om_t m) (om_s m) in
  (forall n, In n nodes -> conserves st (fl_f x n) (fl_f x' n) /\ fl_rho x' n = density_of c st (fl_f x n) /\
     forall a, (a < st_D st)%nat -> fl_u x' n a = momentum st (fl_f x n) a / density_of c st (fl_f x n)) /\
  (forall n, ~ In n nodes -> untouched x x' n).
Proof.
  intros Hc Hs Nd E. cbv zeta. destruct (old_all_ok _ _ _ _ _ _ Nd E) as [Hin Hout]. split; [|exact Hout].
  intros n Hn. destruct (Hin n Hn) as (o & Eo & Ef & Er & Eu). rewrite Ef, Er, Eu. exact (node_conserves _ _ _ _ _ _ Hc Hs Eo).
Qed.

Lemma node_fixed c m rho_old rho u u' f : fixing c m rho -> om_s m <> 0 -> 1 / 10^10 <= rho -> 1 / 10^10 <= rho_old ->
  getEquilibriumDistributions c (stencil_of (om_t m) (om_s m)) rho u = Ok f ->
  exists o, old_node c m false rho_old f u' = Ok o /\ same_populations (stencil_of (om_t m) (om_s m)) f (no_f o) /\
    no_rho o = rho /\ forall a, (a < st_D (stencil_of (om_t m) (om_s m)))%nat -> no_u o a = u a.
Proof.
  intros Hc Hs Hd Hd' E. destruct c; cbn [fixing] in Hc; try contradiction.
  - destruct Hc as [Ht Hf]. exact (plain_fixed BGKStandard m rho_old rho u u' f Hf Ht Hs Hd E).
  - destruct Hc as [Ht Hf]. exact (plain_fixed (BGKSteadyState gamma) m rho_old rho u u' f Hf Ht Hs Hd E).
  - exact (transformed_fixed m rho_old rho u u' f Hc Hs Hd E).
  - exact (regularized_fixed m rho_old rho u u' f Hs Hc Hd E).
  - destruct Hc as [Ht ->]. exact (mrt_fixed MRTStandard m rho_old u u' f (or_introl eq_refl) Ht Hs Hd' E).
  - destruct Hc as [Ht ->]. exact (mrt_fixed MRTEntropic m rho_old u u' f (or_intror eq_refl) Ht Hs Hd' E).
Qed.

Lemma all_fixed c m nodes x0 x : (forall n, In n nodes -> fixing c m (fl_rho x0 n)) -> om_s m <> 0 -> old_supported c (om_t m) = true -> NoDup nodes ->
  (forall n, In n nodes -> 1 / 10^10 <= fl_rho x0 n) -> init_equilibrium c (stencil_of (om_t m) (om_s m)) nodes x0 = Ok x ->
  exists x', old_collideAll c m false nodes x = Ok x' /\
    (forall n, In n nodes -> same_populations (stencil_of (om_t m) (om_s m)) (fl_f x n) (fl_f x' n) /\ fl_rho x' n = fl_rho x0 n /\
       forall a, (a < st_D (stencil_of (om_t m) (om_s m)))%nat -> fl_u x' n a = fl_u x0 n a) /\
    (forall n, ~ In n nodes -> untouched x x' n).
Proof.
  intros Hc Hs Hsup Nd Hd E. destruct (init_equilibrium_ok _ _ _ _ _ Nd E) as (Er & Eu & Hin & _).
  assert (Fx : forall n, In n nodes -> exists o, old_node c m false (fl_rho x n) (fl_f x n) (fl_u x n) = Ok o /\
     same_populations (stencil_of (om_t m) (om_s m)) (fl_f x n) (no_f o) /\ no_rho o = fl_rho x0 n /\
     forall a, (a < st_D (stencil_of (om_t m) (om_s m)))%nat -> no_u o a = fl_u x0 n a).
  { intros n Hn. apply node_fixed; [apply Hc; exact Hn|exact Hs|apply Hd; exact Hn|rewrite Er; apply Hd; exact Hn|apply Hin; exact Hn]. }
  destruct (old_loop_runs c m false nodes x Nd) as [x' E'].
  { intros n Hn. destruct (Fx n Hn) as (o & Eo & _). exists o. exact Eo. }
  exists x'. assert (Ea : old_collideAll c m false nodes x = Ok x') by (unfold old_collideAll; rewrite Hsup; exact E'). split; [exact Ea|].
  destruct (old_all_ok _ _ _ _ _ _ Nd Ea) as [On Off]. split; [|exact Off].
  intros n Hn. destruct (On n Hn) as (o & Eo & Ef & Ero & Euo). destruct (Fx n Hn) as (o' & Eo' & X & Y & Z).
  assert (o' = o) by congruence. subst o'. rewrite Ef, Ero, Euo. split; [exact X|]. split; [exact Y|exact Z].
Qed.

(** ** Forces *)
Lemma make_prefactor c t s nu dt m : make_old c t s nu dt = Ok m -> s <> 0 -> -2 < om_prefactor m < 0.
Proof.
  intros H Hs. destruct (make_old_inv _ _ _ _ _ _ H) as (Hn & Hd & Et & Es & _ & _ & Ep & Etau).
  assert (Hc : 0 < st_cs2 (stencil_of t s)) by (apply cs2_pos; assumption).
  assert (Ht : 0 < om_tau m).
  { destruct c; try (rewrite Etau; apply Rdiv_lt_0_compat; [assumption|]; apply Rmult_lt_0_compat; assumption).
    destruct Etau as [[Hg _] ->]. apply Rdiv_lt_0_compat; [assumption|]. apply Rmult_lt_0_compat; [|assumption]. apply Rmult_lt_0_compat; assumption. }
  rewrite Ep. assert (E : - 1 / (om_tau m + 1/2) = - / (om_tau m + 1/2)) by (field; lra). rewrite E.
  assert (0 < / (om_tau m + 1/2)) by (apply Rinv_0_lt_compat; lra).
  assert (/ (om_tau m + 1/2) < / (1/2)) by (apply Rinv_lt_contravar; [apply Rmult_lt_0_compat|]; lra).
  replace (/ (1/2)) with 2 in * by field. lra.
Qed.

Lemma made_force t s nu dt m ft F rho_old f u o : make_old BGKStandard t s nu dt = Ok m -> s <> 0 -> t = Stencil_D2Q9 -> ft <> NO_FORCING ->
  old_node BGKStandard (with_force m ft F) false rho_old f u = Ok o ->
  let st := stencil_of t s in
  (forall a, (a < st_D st)%nat -> momentum st (no_f o) a = momentum st f a + dt * F a) /\
  (forall a, (a < st_D st)%nat -> no_u o a = (momentum st f a + dt * F a / 2) / mass st f) /\
  (s = 1 \/ ft = SHIFTING_VELOCITY -> mass st (no_f o) = mass st f).
Proof.
  intros H Hs Ht Hf Ho. destruct (make_prefactor _ _ _ _ _ _ H Hs) as [_ Hp].
  destruct (make_old_inv _ _ _ _ _ _ H) as (_ & _ & Et & Es & Ed & _).
  assert (A : om_t (with_force m ft F) = Stencil_D2Q9) by (cbn [with_force om_t]; congruence).
  assert (B : om_s (with_force m ft F) <> 0) by (cbn [with_force om_s]; congruence).
  assert (C : om_prefactor (with_force m ft F) <> 0) by (cbn [with_force om_prefactor]; lra).
  pose proof (forced_momentum _ _ _ _ _ A B C Hf Ho) as X.
  cbn [with_force om_t om_s om_dt om_F om_forceType] in X. rewrite Et, Es, Ed in X. exact X.
Qed.

Lemma made_force_3d t s nu dt m ft F rho_old f u o : make_old BGKStandard t s nu dt = Ok m -> s <> 0 -> t = Stencil_D3Q19 ->
  old_node BGKStandard (with_force m ft F) false rho_old f u = Ok o ->
  let st := stencil_of t s in
  mass st (no_f o) = mass st f /\
  forall a, (a < st_D st)%nat -> momentum st (no_f o) a = momentum st f a +
    match ft with SHIFTING_VELOCITY => dt * F a | GUO => - om_prefactor m / 2 * (dt * F a) | _ => 0 end.
Proof.
  intros H Hs Ht Ho. destruct (make_prefactor _ _ _ _ _ _ H Hs) as [_ Hp].
  destruct (make_old_inv _ _ _ _ _ _ H) as (_ & _ & Et & Es & Ed & _).
  assert (A : om_t (with_force m ft F) = Stencil_D3Q19) by (cbn [with_force om_t]; congruence).
  assert (B : om_s (with_force m ft F) <> 0) by (cbn [with_force om_s]; congruence).
  assert (C : om_prefactor (with_force m ft F) <> 0) by (cbn [with_force om_prefactor]; lra).
  pose proof (forced_momentum_3d _ _ _ _ _ A B C Ho) as X.
  cbn [with_force om_t om_s om_dt om_F om_forceType om_prefactor] in X. rewrite Et, Es, Ed in X. exact X.
Qed.

(** ** Gradients *)
Lemma gradient_flux c t s nu dt tau rho visits f : closed_form t = true -> s <> 0 -> c = BGKStandard \/ c = BGKStandardTransformed ->
  getTau c nu dt (stencil_of t s) = Ok tau ->
  let st := stencil_of t s in let f' := gradient_init st tau rho visits f in
  conserves st f f' /\
  forall a b, (a < st_D st)%nat -> (b < st_D st)%nat ->
    dt * (moment2 st f' a b - moment2 st f a b) = fold_right Rplus 0 (map (fun g => viscous_flux st nu dt rho g a b) visits).
Proof.
  intros Ht Hs Hc Etau. cbv zeta. destruct (gradient_init_moments t s tau rho Ht Hs visits f) as (A & B & C). split; [split; assumption|].
  intros a b Ha Hb. rewrite (C a b Ha Hb). set (st := stencil_of t s) in *.
  assert (Hcs : 0 < st_cs2 st) by (apply cs2_pos; assumption).
  assert (E : tau = nu / (dt * st_cs2 st) /\ 0 < dt).
  { destruct Hc as [-> | ->]; cbn [getTau] in Etau; unfold calculateRelaxationParameter in Etau;
      (destruct (Rlt_dec 0 nu); [|discriminate]); (destruct (Rlt_dec 0 dt); [|discriminate]); split; try congruence; assumption. }
  destruct E as [-> Hd]. clear C. induction visits as [|g rest IH]; cbn [map fold_right]; [ring|].
  rewrite <- IH; [|apply (gradient_init_moments t s _ rho Ht Hs)..]. unfold viscous_flux. field. split; lra.
Qed.
