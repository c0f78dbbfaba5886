(** Single-node collisions of the BGK classes. *)
From Coq Require Import QArith Qreals.
From Verif Require Import Prelude StencilData MRTEntropicData ModelStencils SpecStencils SpecCollision BigSum ProofStencils
  ProofWick ModelConfigNames ModelEquilibria ModelCollision SpecSetup ProofEquilibria ProofEqMoments ProofCollideNode ProofCollideAll
  ModelOldCollision SpecOldCollision ProofOldCollision.
Local Open Scope R_scope.

Lemma checked_inv {A} rho (k : outcome A) x : checked rho k = Ok x -> 1 / 10^10 <= rho /\ k = Ok x.
Proof. unfold checked. destruct (Rlt_dec rho (1 / 10^10)); [discriminate|]. intros; split; [lra|assumption]. Qed.
Lemma checked_ok {A} rho (k : outcome A) : 1 / 10^10 <= rho -> checked rho k = k.
Proof. unfold checked. destruct (Rlt_dec rho (1 / 10^10)); [lra|reflexivity]. Qed.

(** What such a collision does: stored density, stored velocity, new populations. *)
Definition relaxed_node (c : old_class) (m : old_model) (init : bool) (f u : nat -> R) (o : node_out) : Prop :=
  let st := stencil_of (om_t m) (om_s m) in
  1 / 10^10 <= mass st f /\ no_rho o = mass st f /\
  (if init then no_u o = u else forall a, (a < st_D st)%nat -> no_u o a = momentum st f a / mass st f) /\
  forall i, (i < st_Q st)%nat -> no_f o i = add_relaxed (om_prefactor m) f (old_eq c st (mass st f) (no_u o)) i.

Lemma generic_node c m init f u o : node_generic m init c f u = Ok o -> relaxed_node c m init f u o.
Proof.
  unfold node_generic, relaxed_node. intros H. apply checked_inv in H. destruct H as [Hd H].
  unfold getEquilibriumDistributions in H. destruct (eq_asserts _ _); [|discriminate]. cbn [obind] in H. injection H as <-.
  cbn [no_f no_rho no_u]. split; [assumption|]. split; [reflexivity|]. split.
  - destruct init; [reflexivity|]. intros a Ha. reflexivity.
  - intros i Hi. reflexivity.
Qed.

Lemma relaxed_ext r f feq feq' i : feq i = feq' i -> add_relaxed r f feq i = add_relaxed r f feq' i.
Proof. intros H. unfold add_relaxed. rewrite H. reflexivity. Qed.

Lemma bgk_node c m init rho_old f u o : plain_bgk c m -> om_s m <> 0 ->
  old_node c m init rho_old f u = Ok o -> relaxed_node c m init f u o.
Proof.
  destruct m as [t s tau r dt ft F]. unfold plain_bgk. cbn [om_s om_t om_forceType]. intros Hc Hs H.
  destruct c; try contradiction; cbn [old_node] in H.
  - subst ft. unfold node_standard in H. cbn [om_t] in H.
    destruct t; try (apply generic_node; exact H).
    + unfold node_standard_D2Q9 in H. cbn [om_t om_s om_prefactor om_dt om_forceType om_F stencil_of force_velocities] in H. apply checked_inv in H. destruct H as [Hd H].
      unfold relaxed_node. cbn [om_t om_s om_prefactor stencil_of]. split; [exact Hd|].
      change (sumf 9 f) with (mass (D2Q9 s) f) in *. assert (Hr : mass (D2Q9 s) f <> 0) by (apply dens_neq0; assumption).
      destruct init; injection H as <-; cbn [no_f no_rho no_u];
        (split; [reflexivity|]; split; [first [reflexivity | intros a Ha; apply raw9_ok; assumption]|];
         intros i Hi; apply relaxed_ext, feq9_ok; assumption).
    + unfold node_standard_D3Q19 in H. cbn [om_t om_s om_prefactor om_dt om_forceType om_F stencil_of force_velocities] in H. apply checked_inv in H. destruct H as [Hd H].
      unfold relaxed_node. cbn [om_t om_s om_prefactor stencil_of]. split; [exact Hd|].
      change (sumf 19 f) with (mass (D3Q19 s) f) in *. assert (Hr : mass (D3Q19 s) f <> 0) by (apply dens_neq0; assumption).
      destruct init; injection H as <-; cbn [no_f no_rho no_u];
        (split; [reflexivity|]; split; [first [reflexivity | intros a Ha; apply raw19_ok; assumption]|];
         intros i Hi; apply relaxed_ext, feq19_ok; assumption).
    + unfold node_standard_D3Q15 in H. cbn [om_t om_s om_prefactor om_dt om_forceType om_F stencil_of] in H. apply checked_inv in H. destruct H as [Hd H].
      unfold relaxed_node. cbn [om_t om_s om_prefactor stencil_of]. split; [exact Hd|].
      change (sumf 15 f) with (mass (D3Q15 s) f) in *. assert (Hr : mass (D3Q15 s) f <> 0) by (apply dens_neq0; assumption).
      destruct init; injection H as <-; cbn [no_f no_rho no_u];
        (split; [reflexivity|]; split; [first [reflexivity | intros a Ha; apply raw15_ok; assumption]|];
         intros i Hi; apply relaxed_ext, feq15_ok; assumption).
  - unfold node_steady in H. cbn [om_t] in H. destruct t; try (apply generic_node; exact H).
    cbn [om_t om_s om_prefactor stencil_of] in H. apply checked_inv in H. destruct H as [Hd H].
    unfold relaxed_node. cbn [om_t om_s om_prefactor stencil_of]. split; [exact Hd|].
    change (sumf 9 f) with (mass (D2Q9 s) f) in *. assert (Hr : mass (D2Q9 s) f <> 0) by (apply dens_neq0; assumption).
    destruct init; injection H as <-; cbn [no_f no_rho no_u];
      (split; [reflexivity|]; split; [first [reflexivity | intros a Ha; apply raw9_ok; assumption]|];
       intros i Hi; apply relaxed_ext, feq9_steady_ok; assumption).
Qed.

(** It runs for every dense node whose velocity passes the assertions. *)
Definition passes (m : old_model) (init : bool) (f u : nat -> R) : Prop :=
  let st := stencil_of (om_t m) (om_s m) in
  1 / 10^10 <= mass st f /\
  eq_asserts (mass st f) (if init then u else fun a => momentum st f a / mass st f) = true.

Lemma generic_runs c m init f u : passes m init f u -> exists o, node_generic m init c f u = Ok o.
Proof.
  intros [Hd Ha]. unfold node_generic. cbv zeta. rewrite checked_ok by exact Hd. unfold getEquilibriumDistributions.
  match goal with |- context [eq_asserts ?x ?y] => change (eq_asserts x y) with (eq_asserts (mass (stencil_of (om_t m) (om_s m)) f)
    (if init then u else fun a => momentum (stencil_of (om_t m) (om_s m)) f a / mass (stencil_of (om_t m) (om_s m)) f)) end.
  rewrite Ha. cbn [obind]. eexists; reflexivity.
Qed.

Lemma bgk_runs c m init rho_old f u : plain_bgk c m -> passes m init f u -> exists o, old_node c m init rho_old f u = Ok o.
Proof.
  intros Hc Hp. destruct c; try contradiction; cbn [old_node]; cbn [plain_bgk] in Hc.
  - unfold node_standard. destruct (om_t m) eqn:E; try (apply generic_runs; exact Hp);
    destruct Hp as [Hd _]; rewrite E in Hd; cbn [stencil_of] in Hd.
    + unfold node_standard_D2Q9, force_velocities. rewrite Hc. cbv zeta. rewrite checked_ok by exact Hd. destruct init; eexists; reflexivity.
    + unfold node_standard_D3Q19. unfold force_velocities. rewrite Hc. cbv zeta. rewrite checked_ok by exact Hd. destruct init; eexists; reflexivity.
    + unfold node_standard_D3Q15. cbv zeta. rewrite checked_ok by exact Hd. eexists; reflexivity.
  - unfold node_steady. destruct (om_t m) eqn:E; try (apply generic_runs; exact Hp).
    destruct Hp as [Hd _]; rewrite E in Hd; cbn [stencil_of] in Hd. cbv zeta. rewrite checked_ok by exact Hd. eexists; reflexivity.
Qed.

(** ** Consequences *)
Section Relaxed.
  Variables (c : old_class) (m : old_model) (f u : nat -> R) (o : node_out).
  Let st := stencil_of (om_t m) (om_s m).
  Hypothesis Ht : closed_form (om_t m) = true.
  Hypothesis Hs : om_s m <> 0.
  Hypothesis Hc : c <> BGKStandardTransformed.

  Lemma relaxed_node_mass init : relaxed_node c m init f u o -> mass st (no_f o) = mass st f.
  Proof.
    intros [Hd [Hr [Hu Hf]]]. unfold st. rewrite (mass_ext _ _ _ Hf), relaxed_mass, old_eq_mass by assumption.
    destruct c; cbn [eq_mass]; try ring. congruence.
  Qed.
  Lemma relaxed_node_momentum init a : (a < st_D st)%nat -> relaxed_node c m init f u o ->
    momentum st (no_f o) a = momentum st f a + om_prefactor m * (momentum st f a - mass st f * no_u o a).
  Proof.
    intros Ha [Hd [Hr [Hu Hf]]]. unfold st. rewrite (momentum_ext _ _ _ _ Hf), relaxed_momentum, old_eq_momentum by assumption.
    reflexivity.
  Qed.
  Lemma relaxed_node_conserves : relaxed_node c m false f u o ->
    conserves st f (no_f o) /\ stores_moments st f (no_rho o) (no_u o).
  Proof.
    intros H. pose proof H as [Hd [Hr [Hu Hf]]]. split; split.
    - apply (relaxed_node_mass false H).
    - intros a Ha. rewrite (relaxed_node_momentum false a Ha H), (Hu a Ha). fold st in Hd |- *. field. apply dens_neq0. assumption.
    - assumption.
    - assumption.
  Qed.
  Lemma relaxed_node_init a : (a < st_D st)%nat -> relaxed_node c m true f u o ->
    momentum st (no_f o) a - mass st (no_f o) * u a = (1 + om_prefactor m) * (momentum st f a - mass st f * u a).
  Proof.
    intros Ha H. rewrite (relaxed_node_momentum true a Ha H), (relaxed_node_mass true H).
    destruct H as [_ [_ [-> _]]]. ring.
  Qed.
End Relaxed.

Lemma asserts_ext rho u v : u 0%nat = v 0%nat -> u 1%nat = v 1%nat -> eq_asserts rho u = eq_asserts rho v.
Proof. intros H0 H1. unfold eq_asserts. rewrite H0, H1. reflexivity. Qed.

(** The equilibrium of the class is a fixed point. *)
Lemma plain_fixed c m rho_old rho u u' f : plain_bgk c m -> closed_form (om_t m) = true -> om_s m <> 0 ->
  1 / 10^10 <= rho -> getEquilibriumDistributions c (stencil_of (om_t m) (om_s m)) rho u = Ok f ->
  exists o, old_node c m false rho_old f u' = Ok o /\ same_populations (stencil_of (om_t m) (om_s m)) f (no_f o) /\
    no_rho o = rho /\ forall a, (a < st_D (stencil_of (om_t m) (om_s m)))%nat -> no_u o a = u a.
Proof.
  intros Hc Ht Hs Hd Hf. unfold getEquilibriumDistributions in Hf. destruct (eq_asserts rho u) eqn:Ha; [|discriminate].
  injection Hf as <-. set (st := stencil_of (om_t m) (om_s m)) in *.
  assert (Hm : mass st (old_eq c st rho u) = rho).
  { unfold st. rewrite old_eq_mass by assumption. destruct c; try contradiction; reflexivity. }
  assert (Hj : forall a, (a < st_D st)%nat -> momentum st (old_eq c st rho u) a = rho * u a).
  { intros a Hx. apply old_eq_momentum; assumption. }
  assert (Hr : rho <> 0) by (apply dens_neq0; assumption).
  assert (HD : (2 <= st_D st)%nat) by (unfold st; destruct (st_dim (om_t m) (om_s m)) as [E|E]; rewrite E; lia).
  destruct (bgk_runs c m false rho_old (old_eq c st rho u) u' Hc) as [o Ho].
  { split; fold st; rewrite Hm; [assumption|]. rewrite <- Ha. apply asserts_ext; rewrite Hj by lia; field; assumption. }
  exists o. split; [assumption|]. destruct (bgk_node _ _ _ _ _ _ _ Hc Hs Ho) as [_ [Hrho [Hu Hfo]]]. fold st in Hrho, Hu, Hfo.
  assert (Hv : forall a, (a < st_D st)%nat -> no_u o a = u a).
  { intros a Hx. rewrite (Hu a Hx), Hm, (Hj a Hx). field. assumption. }
  split; [|split; [rewrite Hrho; assumption|assumption]].
  intros i Hi. rewrite (Hfo i Hi), Hm. unfold add_relaxed. rewrite (old_eq_ext c st rho (no_u o) u i Hv). ring.
Qed.
