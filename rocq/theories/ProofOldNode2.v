(** Single-node collisions of the other classes, and forces. *)
From Coq Require Import QArith Qreals.
From Verif Require Import Prelude StencilData MRTEntropicData ModelStencils SpecStencils SpecCollision BigSum ProofStencils
  ProofWick ModelConfigNames ModelEquilibria ModelCollision SpecSetup ProofEquilibria ProofEqMoments ProofRelax ProofCollideNode ProofCollideAll
  ModelOldCollision SpecOldCollision ProofOldCollision ProofOldNode.
Local Open Scope R_scope.

(** ** BGKStandardTransformed on D2Q9 *)
Lemma transformed_node m init rho_old f u o : om_t m = Stencil_D2Q9 -> om_s m <> 0 ->
  old_node BGKStandardTransformed m init rho_old f u = Ok o ->
  let st := stencil_of (om_t m) (om_s m) in
  1 / 10^10 <= mass st f + 1 /\ no_rho o = mass st f + 1 /\
  (if init then no_u o = u else forall a, (a < st_D st)%nat -> no_u o a = momentum st f a / (mass st f + 1)) /\
  forall i, (i < st_Q st)%nat ->
    no_f o i = add_relaxed (om_prefactor m) f (old_eq BGKStandardTransformed st (mass st f + 1) (no_u o)) i.
Proof.
  destruct m as [t s tau r dt ft F]. cbn [om_s om_t om_prefactor]. intros -> Hs H. cbn [stencil_of]. cbv zeta.
  cbn [old_node] in H. unfold node_transformed in H. cbn [om_t om_s om_prefactor stencil_of] in H. apply checked_inv in H. destruct H as [Hd H].
  change (sumf 9 f) with (mass (D2Q9 s) f) in *. unfold rho0 in H, Hd.
  assert (Hr : mass (D2Q9 s) f + 1 <> 0) by (apply dens_neq0; assumption).
  split; [assumption|].
  destruct init; injection H as <-; cbn [no_f no_rho no_u];
    (split; [reflexivity|]; split; [first [reflexivity | intros a Ha; apply raw9_ok; assumption]|];
     intros i Hi; apply relaxed_ext, feq9_transformed_ok; assumption).
Qed.

Lemma transformed_conserves m rho_old f u o : om_t m = Stencil_D2Q9 -> om_s m <> 0 ->
  old_node BGKStandardTransformed m false rho_old f u = Ok o ->
  conserves (stencil_of (om_t m) (om_s m)) f (no_f o) /\
  no_rho o = mass (stencil_of (om_t m) (om_s m)) f + 1.
Proof.
  intros Ht Hs H. destruct (transformed_node _ _ _ _ _ _ Ht Hs H) as [Hd [Hr [Hu Hf]]].
  assert (Hc : closed_form (om_t m) = true) by (rewrite Ht; reflexivity).
  split; [|assumption]. split.
  - rewrite (mass_ext _ _ _ Hf), relaxed_mass, old_eq_mass by assumption. cbn [eq_mass]. ring.
  - intros a Ha. rewrite (momentum_ext _ _ _ _ Hf), relaxed_momentum, old_eq_momentum, (Hu a Ha) by assumption.
    field. apply dens_neq0. assumption.
Qed.

Lemma transformed_fixed m rho_old rho u u' f : om_t m = Stencil_D2Q9 -> om_s m <> 0 ->
  1 / 10^10 <= rho -> getEquilibriumDistributions BGKStandardTransformed (stencil_of (om_t m) (om_s m)) rho u = Ok f ->
  exists o, old_node BGKStandardTransformed m false rho_old f u' = Ok o /\ same_populations (stencil_of (om_t m) (om_s m)) f (no_f o) /\
    no_rho o = rho /\ forall a, (a < st_D (stencil_of (om_t m) (om_s m)))%nat -> no_u o a = u a.
Proof.
  intros Ht Hs Hd Hf. unfold getEquilibriumDistributions in Hf. destruct (eq_asserts rho u) eqn:Ha; [|discriminate].
  injection Hf as <-. set (st := stencil_of (om_t m) (om_s m)) in *. set (f := old_eq BGKStandardTransformed st rho u).
  assert (Hc : closed_form (om_t m) = true) by (rewrite Ht; reflexivity).
  assert (Hm : mass st f + 1 = rho).
  { unfold f, st. rewrite old_eq_mass by assumption. cbn [eq_mass]. ring. }
  assert (Hr : rho <> 0) by (apply dens_neq0; assumption).
  assert (Hj : forall a, (a < st_D st)%nat -> momentum st f a = rho * u a) by (intros a Hx; apply old_eq_momentum; assumption).
  assert (Ho : exists o, old_node BGKStandardTransformed m false rho_old f u' = Ok o).
  { cbn [old_node]. unfold node_transformed. rewrite Ht. cbv zeta.
    rewrite checked_ok; [eexists; reflexivity|].
    assert (E : sumf 9 f = mass st f) by (unfold st; rewrite Ht; reflexivity). rewrite E. unfold rho0. rewrite Hm. assumption. }
  destruct Ho as [o Ho]. exists o. split; [assumption|].
  destruct (transformed_node _ _ _ _ _ _ Ht Hs Ho) as [_ [Hrho [Hu Hfo]]]. fold st in Hrho, Hu, Hfo.
  assert (Hv : forall a, (a < st_D st)%nat -> no_u o a = u a).
  { intros a Hx. rewrite (Hu a Hx), Hm, (Hj a Hx). field. assumption. }
  split; [|split; [rewrite Hrho; assumption|assumption]].
  intros i Hi. rewrite (Hfo i Hi), Hm. unfold add_relaxed. rewrite (old_eq_ext _ st rho (no_u o) u i Hv). fold f. ring.
Qed.

(** ** BGKRegularized *)
Lemma fi1_her2 m P i : old_fi1 m P i = st_w (stencil_of (om_t m) (om_s m)) i * 1 * her2 (stencil_of (om_t m) (om_s m)) P i.
Proof.
  unfold old_fi1, her2, old_Q. rewrite <- sumf_scal. apply sumf_ext. intros b _. rewrite <- sumf_scal. apply sumf_ext. intros c _.
  cbn [eprod]. unfold delta. destruct (Nat.eqb b c); unfold Rdiv; ring.
Qed.

Section Fi1.
  Variables (m : old_model) (P : nat -> nat -> R).
  Let st := stencil_of (om_t m) (om_s m).
  Hypothesis Ht : closed_form (om_t m) = true.
  Hypothesis Hs : om_s m <> 0.
  Let Hiso : isotropic st (moment_order (om_t m)) := isotropic_all (om_t m) (om_s m) Ht.
  Let Hcs : st_cs2 st <> 0.
  Proof. apply Rgt_not_eq, Rlt_gt, cs2_pos. assumption. Qed.
  Let H5 : (5 <= moment_order (om_t m))%nat := order5 _ Ht.

  Lemma fi1_mass : mass st (old_fi1 m P) = 0.
  Proof. rewrite (mass_ext st _ _ (fun i _ => fi1_her2 m P i)). fold st. rewrite mass_Ex, (her2_0 st _ Hiso) by (assumption || lia). ring. Qed.
  Lemma fi1_momentum a : (a < st_D st)%nat -> momentum st (old_fi1 m P) a = 0.
  Proof.
    intros Ha. rewrite (momentum_ext st _ _ a (fun i _ => fi1_her2 m P i)). fold st.
    rewrite momentum_Ex, (her2_1 st _ Hiso) by (assumption || lia). ring.
  Qed.
  Lemma fi1_moment2 a b : (a < st_D st)%nat -> (b < st_D st)%nat -> (forall x y, P x y = P y x) ->
    moment2 st (old_fi1 m P) a b = P a b.
  Proof.
    intros Ha Hb Hsym. rewrite (moment2_ext st _ _ a b (fun i _ => fi1_her2 m P i)). fold st.
    rewrite moment2_Ex, (her2_2 st _ Hiso) by (assumption || lia). ring.
  Qed.
End Fi1.

Lemma sum_mass st k f g : mass st (fun i => f i + k * g i) = mass st f + k * mass st g.
Proof. unfold mass. rewrite sumf_plus, sumf_scal. reflexivity. Qed.
Lemma sum_momentum st k f g a : momentum st (fun i => f i + k * g i) a = momentum st f a + k * momentum st g a.
Proof.
  unfold momentum. rewrite <- sumf_scal, <- sumf_plus. apply sumf_ext. intros. ring.
Qed.
Lemma sum_moment2 st k f g a b : moment2 st (fun i => f i + k * g i) a b = moment2 st f a b + k * moment2 st g a b.
Proof.
  unfold moment2. rewrite <- sumf_scal, <- sumf_plus. apply sumf_ext. intros. ring.
Qed.

(** What the collision does on each of its stencils: equilibrium plus a multiple of a second-order term. *)
Definition reg_P (m : old_model) (f feq : nat -> R) : nat -> nat -> R :=
  match om_t m with
  | Stencil_D2Q9 => fun b c => pi_D2Q9 f b c - pi_D2Q9 feq b c
  | _ => fun b c => sumf 19 (fun a => f a * st_e (stencil_of (om_t m) (om_s m)) a b * st_e (stencil_of (om_t m) (om_s m)) a c)
  end.

Lemma pi9_sym f b c : pi_D2Q9 f b c = pi_D2Q9 f c b.
Proof. destruct b, c; reflexivity. Qed.
Lemma reg_P_sym m f feq b c : reg_P m f feq b c = reg_P m f feq c b.
Proof.
  unfold reg_P. destruct (om_t m); try (apply sumf_ext; intros; ring).
  rewrite (pi9_sym f), (pi9_sym feq). reflexivity.
Qed.

Lemma pi9_ext f g b c : (forall i, (i < 9)%nat -> f i = g i) -> pi_D2Q9 f b c = pi_D2Q9 g b c.
Proof. intros H. unfold pi_D2Q9. destruct b, c; rewrite !H by lia; reflexivity. Qed.

(** On D2Q9 without the initialisation flag, and on D3Q19 without forces. *)
Lemma regularized_node m init rho_old f u o : om_s m <> 0 ->
  (om_t m = Stencil_D2Q9 \/ om_t m = Stencil_D3Q19 /\ om_forceType m = NO_FORCING) ->
  old_node BGKRegularized m init rho_old f u = Ok o ->
  let st := stencil_of (om_t m) (om_s m) in
  let feq := old_eq BGKStandard st (mass st f) (no_u o) in
  1 / 10^10 <= mass st f /\ no_rho o = mass st f /\
  (if init then no_u o = u else forall a, (a < st_D st)%nat -> no_u o a = momentum st f a / mass st f) /\
  forall i, (i < st_Q st)%nat -> no_f o i = feq i + (1 + om_prefactor m) * old_fi1 m (reg_P m f feq) i.
Proof.
  destruct m as [t s tau r dt ft F]. cbn [om_s om_t om_prefactor om_forceType]. intros Hs Hcase H. cbv zeta.
  cbn [old_node] in H. unfold node_regularized in H. cbn [om_t] in H.
  destruct Hcase as [-> | [-> ->]]; cbn [stencil_of].
  - unfold node_regularized_D2Q9 in H. cbn [om_t om_s om_prefactor stencil_of] in H. apply checked_inv in H. destruct H as [Hd H].
    change (sumf 9 f) with (mass (D2Q9 s) f) in *. assert (Hr : mass (D2Q9 s) f <> 0) by (apply dens_neq0; assumption).
    split; [assumption|].
    destruct init; injection H as <-; cbn [no_f no_rho no_u];
    (split; [reflexivity|]; split; [first [reflexivity | intros a Ha; apply raw9_ok; assumption]|];
     intros i Hi; apply f_equal2; [apply feq9_ok; assumption|]; apply f_equal2; [reflexivity|]; unfold old_fi1; cbn [om_t om_s stencil_of D2Q9 st_D];
     apply sumf_ext; intros b _; apply sumf_ext; intros c _; f_equal; unfold reg_P; cbn [om_t]; f_equal;
     apply pi9_ext; intros; apply feq9_ok; assumption).
  - unfold node_regularized_D3Q19 in H. cbn [om_t om_s om_prefactor om_forceType stencil_of] in H. apply checked_inv in H. destruct H as [Hd H].
    change (sumf 19 f) with (mass (D3Q19 s) f) in *. assert (Hr : mass (D3Q19 s) f <> 0) by (apply dens_neq0; assumption).
    split; [assumption|]. destruct init; [discriminate|]. unfold force_velocities in H. cbn [om_forceType] in H. injection H as <-; cbn [no_f no_rho no_u].
    split; [reflexivity|]. split; [intros a Ha; apply raw19_ok; assumption|].
    intros i Hi. apply f_equal2; [apply feq19_ok; assumption|reflexivity].
Qed.

Lemma regularized_moments m init rho_old f u o : om_s m <> 0 ->
  (om_t m = Stencil_D2Q9 \/ om_t m = Stencil_D3Q19 /\ om_forceType m = NO_FORCING) ->
  old_node BGKRegularized m init rho_old f u = Ok o ->
  let st := stencil_of (om_t m) (om_s m) in
  let feq := old_eq BGKStandard st (mass st f) (no_u o) in
  mass st (no_f o) = mass st f /\
  (forall a, (a < st_D st)%nat -> momentum st (no_f o) a = mass st f * no_u o a) /\
  (forall a b, (a < st_D st)%nat -> (b < st_D st)%nat ->
     moment2 st (no_f o) a b = moment2 st feq a b + (1 + om_prefactor m) * reg_P m f feq a b).
Proof.
  intros Hs Hcase H st feq. destruct (regularized_node _ _ _ _ _ _ Hs Hcase H) as [_ [_ [_ Hf]]]. fold st in Hf. fold feq in Hf.
  assert (Ht : closed_form (om_t m) = true) by (destruct Hcase as [-> | [-> _]]; reflexivity).
  repeat split.
  - rewrite (mass_ext _ _ _ Hf), sum_mass. unfold st. rewrite fi1_mass by assumption. unfold feq, st. rewrite old_eq_mass by assumption.
    cbn [eq_mass]. ring.
  - intros a Ha. rewrite (momentum_ext _ _ _ _ Hf), sum_momentum. unfold st. rewrite fi1_momentum by assumption. unfold feq, st.
    rewrite old_eq_momentum by assumption. ring.
  - intros a b Ha Hb. rewrite (moment2_ext _ _ _ _ _ Hf), sum_moment2. unfold st. rewrite fi1_moment2; [reflexivity|assumption..|].
    apply reg_P_sym.
Qed.

Lemma regularized_conserves m rho_old f u o : om_s m <> 0 ->
  (om_t m = Stencil_D2Q9 \/ om_t m = Stencil_D3Q19 /\ om_forceType m = NO_FORCING) ->
  old_node BGKRegularized m false rho_old f u = Ok o ->
  let st := stencil_of (om_t m) (om_s m) in
  conserves st f (no_f o) /\ stores_moments st f (no_rho o) (no_u o).
Proof.
  intros Hs Hcase H st. destruct (regularized_node _ _ _ _ _ _ Hs Hcase H) as [Hd [Hr [Hu _]]].
  destruct (regularized_moments _ _ _ _ _ _ Hs Hcase H) as [Hm [Hj _]]. fold st in Hd, Hr, Hu, Hm, Hj.
  repeat split; try assumption. intros a Ha. rewrite (Hj a Ha), (Hu a Ha). field. apply dens_neq0. assumption.
Qed.

Lemma pi9_moment2 s f a b : s <> 0 -> (a < 2)%nat -> (b < 2)%nat -> pi_D2Q9 f a b = moment2 (D2Q9 s) f a b / (s * s).
Proof.
  intros Hs Ha Hb. unfold pi_D2Q9, moment2. cbn [D2Q9 st_Q st_e sumf].
  destruct a as [|[|a]]; [| |lia]; (destruct b as [|[|b]]; [| |lia]); lit15; field; assumption.
Qed.

Lemma eq_stress c t s rho u a b : closed_form t = true -> s <> 0 -> standard_equilibrium c ->
  (a < st_D (stencil_of t s))%nat -> (b < st_D (stencil_of t s))%nat ->
  moment2 (stencil_of t s) (old_eq c (stencil_of t s) rho u) a b = rho * (st_cs2 (stencil_of t s) * delta a b + u a * u b).
Proof.
  intros Ht Hs Hc Ha Hb. rewrite (moment2_ext _ _ _ a b (fun i _ => old_eq_standard t s Ht c rho u i Hc)).
  apply (bgk_moment2 _ _ (isotropic_all t s Ht)); try assumption; [|apply order5; assumption].
  apply Rgt_not_eq, Rlt_gt, cs2_pos. assumption.
Qed.

Lemma regularized_stress m rho_old f u o : om_s m <> 0 -> om_t m = Stencil_D2Q9 ->
  old_node BGKRegularized m false rho_old f u = Ok o ->
  let st := stencil_of (om_t m) (om_s m) in
  forall a b, (a < st_D st)%nat -> (b < st_D st)%nat ->
  stress st (no_f o) a b = (1 + om_prefactor m) / (om_s m * om_s m) * stress st f a b.
Proof.
  intros Hs Ht H st a b Ha Hb.
  destruct (regularized_node _ _ _ _ _ _ Hs (or_introl Ht) H) as [Hd [Hr [Hu _]]].
  destruct (regularized_moments _ _ _ _ _ _ Hs (or_introl Ht) H) as [Hm [Hj H2]]. fold st in Hd, Hr, Hu, Hm, Hj, H2.
  assert (Hr0 : mass st f <> 0) by (apply dens_neq0; assumption).
  assert (Hc : closed_form (om_t m) = true) by (rewrite Ht; reflexivity).
  assert (E : forall g, pi_D2Q9 g a b = moment2 st g a b / (om_s m * om_s m)).
  { intros g. unfold st. rewrite Ht. unfold st in Ha, Hb. rewrite Ht in Ha, Hb. apply pi9_moment2; assumption. }
  unfold stress. rewrite Hm, (H2 a b Ha Hb), (Hj a Ha), (Hj b Hb). unfold reg_P. rewrite Ht, !E.
  unfold st in Ha, Hb. rewrite !(eq_stress BGKStandard _ _ _ _ _ _ Hc Hs I Ha Hb). fold st in Ha, Hb |- *.
  rewrite (Hu a Ha), (Hu b Hb). field. split; assumption.
Qed.

Lemma regularized_stress_3d m rho_old f u o : om_s m <> 0 -> om_t m = Stencil_D3Q19 -> om_forceType m = NO_FORCING ->
  old_node BGKRegularized m false rho_old f u = Ok o ->
  let st := stencil_of (om_t m) (om_s m) in
  forall a b, (a < st_D st)%nat -> (b < st_D st)%nat ->
  stress st (no_f o) a b = (1 + om_prefactor m) * moment2 st f a b.
Proof.
  intros Hs Ht HF H st a b Ha Hb.
  destruct (regularized_node _ _ _ _ _ _ Hs (or_intror (conj Ht HF)) H) as [Hd [Hr [Hu _]]].
  destruct (regularized_moments _ _ _ _ _ _ Hs (or_intror (conj Ht HF)) H) as [Hm [Hj H2]]. fold st in Hd, Hr, Hu, Hm, Hj, H2.
  assert (Hr0 : mass st f <> 0) by (apply dens_neq0; assumption).
  assert (Hc : closed_form (om_t m) = true) by (rewrite Ht; reflexivity).
  unfold stress. rewrite Hm, (H2 a b Ha Hb), (Hj a Ha), (Hj b Hb).
  assert (E : reg_P m f (old_eq BGKStandard st (mass st f) (no_u o)) a b = moment2 st f a b).
  { unfold reg_P, moment2. fold st. unfold st. rewrite Ht. reflexivity. }
  rewrite E. unfold st in Ha, Hb. rewrite (eq_stress BGKStandard _ _ _ _ _ _ Hc Hs I Ha Hb). fold st in Ha, Hb |- *.
  rewrite (Hu a Ha), (Hu b Hb). field. assumption.
Qed.

Lemma regularized_fixed m rho_old rho u u' f : om_s m <> 0 -> om_t m = Stencil_D2Q9 ->
  1 / 10^10 <= rho -> getEquilibriumDistributions BGKRegularized (stencil_of (om_t m) (om_s m)) rho u = Ok f ->
  exists o, old_node BGKRegularized m false rho_old f u' = Ok o /\ same_populations (stencil_of (om_t m) (om_s m)) f (no_f o) /\
    no_rho o = rho /\ forall a, (a < st_D (stencil_of (om_t m) (om_s m)))%nat -> no_u o a = u a.
Proof.
  intros Hs Ht Hd Hf. unfold getEquilibriumDistributions in Hf. destruct (eq_asserts rho u) eqn:Ha; [|discriminate].
  injection Hf as <-. set (st := stencil_of (om_t m) (om_s m)) in *. set (f := old_eq BGKRegularized st rho u).
  assert (Hc : closed_form (om_t m) = true) by (rewrite Ht; reflexivity).
  assert (Hm : mass st f = rho) by (unfold f, st; rewrite old_eq_mass by assumption; reflexivity).
  assert (Hr : rho <> 0) by (apply dens_neq0; assumption).
  assert (Hj : forall a, (a < st_D st)%nat -> momentum st f a = rho * u a) by (intros a Hx; apply old_eq_momentum; assumption).
  assert (Ho : exists o, old_node BGKRegularized m false rho_old f u' = Ok o).
  { cbn [old_node]. unfold node_regularized. rewrite Ht. unfold node_regularized_D2Q9. cbv zeta.
    rewrite checked_ok; [eexists; reflexivity|].
    assert (E : sumf 9 f = mass st f) by (unfold st; rewrite Ht; reflexivity). rewrite E, Hm. assumption. }
  destruct Ho as [o Ho]. exists o. split; [assumption|].
  destruct (regularized_node _ _ _ _ _ _ Hs (or_introl Ht) Ho) as [_ [Hrho [Hu Hfo]]]. fold st in Hrho, Hu, Hfo.
  assert (Hv : forall a, (a < st_D st)%nat -> no_u o a = u a).
  { intros a Hx. rewrite (Hu a Hx), Hm, (Hj a Hx). field. assumption. }
  split; [|split; [rewrite Hrho; assumption|assumption]].
  assert (Hfeq : forall i, old_eq BGKStandard st (mass st f) (no_u o) i = f i).
  { intros i. rewrite Hm, (old_eq_ext _ st rho (no_u o) u i Hv). unfold f. unfold st. rewrite !old_eq_standard by (assumption || exact I). reflexivity. }
  intros i Hi. rewrite (Hfo i Hi), Hfeq.
  assert (Hz : old_fi1 m (reg_P m f (old_eq BGKStandard st (mass st f) (no_u o))) i = 0).
  { unfold old_fi1. apply sumf_zero. intros b _. apply sumf_zero. intros c _. unfold reg_P. rewrite Ht.
    rewrite (pi9_ext (old_eq BGKStandard st (mass st f) (no_u o)) f b c) by (intros; apply Hfeq). ring. }
  rewrite Hz. ring.
Qed.
