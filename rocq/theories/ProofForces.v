(** External forces in the single-node collision. *)
From Verif Require Import Prelude StencilData MRTData ModelStencils SpecStencils SpecCollision BigSum ProofStencils
  ProofWick ModelConfigNames ModelEquilibria ModelCollision SpecSetup ProofEquilibria ProofQuartic ProofEqMoments ProofRelax
  ProofCollideNode.
Open Scope R_scope.

Lemma node_inv_shift k q gd F f u o : gd_force gd = Some F -> cc_forcing (gd_cfg gd) = SHIFTING_VELOCITY ->
  collide_node k q gd false f u = Ok o ->
  let rho := sumf (st_Q (gd_L gd)) f in
  let v := calculateVelocity (gd_L gd) f rho in
  1 / 10^10 <= rho /\ no_rho o = rho /\
  (forall a, no_u o a = v a * gd_scaling gd + 1/2 * gd_dt gd * F a / rho) /\
  exists feq, relax k q gd f rho (fun a => v a + gd_tau gd * gd_dt gd * F a / rho / gd_scaling gd) 1 = Ok (no_f o, feq).
Proof.
  intros HF Hm H rho v. unfold collide_node in H.
  destruct (calculateDensity (st_Q (gd_L gd)) f) as [r| |] eqn:Hd; try discriminate. cbn [obind] in H.
  apply density_inv in Hd. destruct Hd as [Hr Hd]. fold rho in Hr. subst r.
  rewrite HF in H. unfold applyMacroscopicForces, applyForces in H. rewrite Hm in H. cbn [obind fst snd] in H.
  fold v in H.
  match type of H with context [relax k q gd f rho ?w 1] => destruct (relax k q gd f rho w 1) as [[f' feq]| |] eqn:Hrel; try discriminate end.
  cbn [obind fst snd] in H. unfold postCollisionApplyForces in H. rewrite Hm in H. cbn [obind fst snd] in H.
  injection H as <-. cbn [no_f no_rho no_u].
  repeat split; try assumption. exists feq. reflexivity.
Qed.

Lemma node_inv_exact k q gd F f u o : gd_force gd = Some F -> cc_forcing (gd_cfg gd) = EXACT_DIFFERENCE ->
  collide_node k q gd false f u = Ok o ->
  let rho := sumf (st_Q (gd_L gd)) f in
  let v := calculateVelocity (gd_L gd) f rho in
  1 / 10^10 <= rho /\ no_rho o = rho /\
  (forall a, no_u o a = v a * gd_scaling gd + 1/2 * gd_dt gd * F a / rho) /\
  exists f1 feq sh, relax k q gd f rho v 1 = Ok (f1, feq) /\
    eq_calc q (gd_L gd) (gd_gamma_ss gd) rho (fun a => v a + gd_dt gd * F a / rho / gd_scaling gd) 1 = Ok sh /\
    forall i, no_f o i = f1 i + (sh i - feq i).
Proof.
  intros HF Hm H rho v. unfold collide_node in H.
  destruct (calculateDensity (st_Q (gd_L gd)) f) as [r| |] eqn:Hd; try discriminate. cbn [obind] in H.
  apply density_inv in Hd. destruct Hd as [Hr Hd]. fold rho in Hr. subst r.
  rewrite HF in H. unfold applyMacroscopicForces, applyForces in H. rewrite Hm in H. cbn [obind fst snd] in H.
  fold v in H.
  destruct (relax k q gd f rho v 1) as [[f1 feq]| |] eqn:Hrel; try discriminate.
  cbn [obind fst snd] in H. unfold postCollisionApplyForces in H. rewrite Hm in H. cbn [obind fst snd] in H.
  match type of H with context [eq_calc q ?L ?g rho ?w 1] => destruct (eq_calc q L g rho w 1) as [sh| |] eqn:Heq; try discriminate end.
  cbn [obind fst snd] in H. injection H as <-. cbn [no_f no_rho no_u].
  repeat split; try assumption. exists f1, feq, sh. repeat split; assumption.
Qed.

(** Stored velocity in both forcing schemes: momentum plus half of the force impulse. *)
Lemma stored_velocity t s f rho F dt a : s <> 0 -> rho = mass (stencil_of t s) f -> rho <> 0 -> (a < st_D (stencil_of t s))%nat ->
  calculateVelocity (unscale (stencil_of t s) s) f rho a * s + 1/2 * dt * F / rho =
  (momentum (stencil_of t s) f a + dt / 2 * F) / rho.
Proof.
  intros Hs Hr Hr0 Ha. rewrite (momentum_unscale (stencil_of t s) s Hs), <- (vel_momentum t s f rho) by assumption.
  field. assumption.
Qed.


Lemma rate_factor k gd t s a kap : gd_L gd = unscale (stencil_of t s) s -> closed_form t = true ->
  1/2 < gd_tau gd -> (a < st_D (stencil_of t s))%nat ->
  momentum_rate k gd a = Ok kap -> kap * gd_tau gd = shift_factor k (gd_cfg gd) (gd_tau gd).
Proof.
  intros HL Ht Htau Ha H. unfold momentum_rate in H. destruct k; cbn [shift_factor].
  - injection H as <-. field. lra.
  - injection H as <-. ring.
  - rewrite HL in H. unfold make_diag in H.
    change (st_Q (unscale (stencil_of t s) s)) with (st_Q (stencil_of t s)) in H.
    destruct t; try discriminate Ht; cbn [stencil_of st_Q D2Q9 D3Q19 D3Q15 D3Q27 D3Q13 RD3Q27 D2Q25H Nat.eqb obind] in H; try discriminate H.
    + change (st_D (stencil_of Stencil_D2Q9 s)) with 2%nat in Ha. unfold mom_row in H. cbn [Nat.eqb] in H.
      destruct (cc_mrt_basis (gd_cfg gd)), (cc_mrt_relax (gd_cfg gd)); cbn [make_diag_9 obind] in H; try discriminate H;
        destruct a as [|[|a]]; try lia; cbn [Nat.add] in H; injection H as <-; field; lra.
    + change (st_D (stencil_of Stencil_D3Q19 s)) with 3%nat in Ha. unfold mom_row in H. cbn [Nat.eqb] in H.
      unfold make_diag_19 in H. destruct (Rlt_dec (1/2) (gd_tau gd)); [|contradiction].
      destruct (cc_mrt_basis (gd_cfg gd)), (cc_mrt_relax (gd_cfg gd)); cbn [obind] in H; try discriminate H;
        destruct a as [|[|[|a]]]; try lia; cbn [Nat.add Nat.mul nth] in H; injection H as <-; first [ring|field; lra].
Qed.

Definition steady (cfg : collision_config) : Prop := cc_equilibrium cfg = STEADYSTATE_EQUILIBRIUM.

Lemma force_gd cfg F st s nu dt : cc_equilibrium cfg <> STEADYSTATE_EQUILIBRIUM ->
  gd_force (make_genData cfg (Some F) st s nu dt) = Some (fun i => F i).
Proof. intros H. unfold make_genData. cbn [gd_force]. destruct (cc_equilibrium cfg); try reflexivity. congruence. Qed.

Lemma tau_gd cfg F st s nu dt : cc_equilibrium cfg <> STEADYSTATE_EQUILIBRIUM ->
  gd_tau (make_genData cfg F st s nu dt) = nu / (dt * st_cs2 st) + 1/2.
Proof. intros H. unfold make_genData. cbn [gd_tau]. destruct (cc_equilibrium cfg); try reflexivity. congruence. Qed.

Lemma shifting_ok k q cfg t s nu dt F f u o :
  closed_form t = true -> valid_setup cfg s nu dt -> carries_momentum q = true ->
  cc_equilibrium cfg <> STEADYSTATE_EQUILIBRIUM -> cc_forcing cfg = SHIFTING_VELOCITY ->
  collide_node k q (make_genData cfg (Some F) (stencil_of t s) s nu dt) false f u = Ok o ->
  let tau := nu / (dt * st_cs2 (stencil_of t s)) + 1/2 in
  changes_momentum_by (stencil_of t s) f (no_f o) (fun a => shift_factor k cfg tau * dt * F a) /\
  no_rho o = mass (stencil_of t s) f /\
  (forall a, (a < st_D (stencil_of t s))%nat ->
     no_u o a = (momentum (stencil_of t s) f a + dt / 2 * F a) / mass (stencil_of t s) f).
Proof.
  intros Ht Hv Hq Hss Hm H tau. pose proof (tau_pos cfg (Some F) t s nu dt Hv) as Htau.
  assert (Hs : s <> 0) by (destruct Hv; lra).
  pose proof (tau_gd cfg (Some F) (stencil_of t s) s nu dt Hss) as Htg. fold tau in Htg.
  pose proof (force_gd cfg F (stencil_of t s) s nu dt Hss) as HF.
  set (gd := make_genData cfg (Some F) (stencil_of t s) s nu dt) in *.
  destruct (node_inv_shift k q gd _ f u o HF Hm H) as [Hd [Hrho [Hu [feq Hrel]]]].
  change (gd_L gd) with (unscale (stencil_of t s) s) in *. change (gd_scaling gd) with s in *.
  change (gd_dt gd) with dt in *.
  destruct (relax_momentum k q gd t s f _ _ _ _ _ Ht Hs Hq eq_refl eq_refl Hrel) as [Hm0 [_ [_ Hj]]].
  change (gd_L gd) with (unscale (stencil_of t s) s) in *.
  assert (Hn0 : sumf (st_Q (unscale (stencil_of t s) s)) f <> 0) by (apply dens_neq0; assumption).
  split; [split|split].
  - rewrite (mass_unscale (stencil_of t s) s), Hm0. reflexivity.
  - intros a Ha. rewrite !(momentum_unscale (stencil_of t s) s Hs). destruct (Hj a Ha) as [_ [kap [Hk ->]]].
    pose proof (rate_factor k gd t s a kap eq_refl Ht Htau Ha Hk) as Hkf. rewrite Htg in Hkf. change (gd_cfg gd) with cfg in Hkf.
    rewrite <- Hkf, Htg. rewrite <- (vel_momentum t s f _ a Hs Hn0 Ha). unfold mass. field. split; assumption.
  - assumption.
  - intros a Ha. rewrite Hu. apply stored_velocity; auto.
Qed.

Lemma exact_ok k q cfg t s nu dt F f u o :
  closed_form t = true -> valid_setup cfg s nu dt -> carries_momentum q = true ->
  cc_equilibrium cfg <> STEADYSTATE_EQUILIBRIUM -> cc_forcing cfg = EXACT_DIFFERENCE ->
  collide_node k q (make_genData cfg (Some F) (stencil_of t s) s nu dt) false f u = Ok o ->
  changes_momentum_by (stencil_of t s) f (no_f o) (fun a => dt * F a) /\
  no_rho o = mass (stencil_of t s) f /\
  (forall a, (a < st_D (stencil_of t s))%nat ->
     no_u o a = (momentum (stencil_of t s) f a + dt / 2 * F a) / mass (stencil_of t s) f).
Proof.
  intros Ht Hv Hq Hss Hm H.
  assert (Hs : s <> 0) by (destruct Hv; lra).
  pose proof (force_gd cfg F (stencil_of t s) s nu dt Hss) as HF.
  set (gd := make_genData cfg (Some F) (stencil_of t s) s nu dt) in *.
  destruct (node_inv_exact k q gd _ f u o HF Hm H) as [Hd [Hrho [Hu [f1 [feq [sh [Hrel [Hsh Hf]]]]]]]].
  change (gd_L gd) with (unscale (stencil_of t s) s) in *. change (gd_scaling gd) with s in *.
  change (gd_dt gd) with dt in *.
  destruct (relax_momentum k q gd t s f _ _ _ _ _ Ht Hs Hq eq_refl eq_refl Hrel) as [Hm0 [Hmeq [_ Hj]]].
  change (gd_L gd) with (unscale (stencil_of t s) s) in *.
  assert (Hn0 : sumf (st_Q (unscale (stencil_of t s) s)) f <> 0) by (apply dens_neq0; assumption).
  match type of Hsh with eq_calc _ _ _ ?r ?w _ = _ =>
    destruct (eq_ok q t s (gd_gamma_ss gd) r w 1 Ht Hs Hq) as [sh' [Hsh' [Hs0 Hs1]]] end.
  rewrite Hsh in Hsh'. injection Hsh' as <-.
  set (L := unscale (stencil_of t s) s) in *.
  split; [split|split].
  - rewrite (mass_ext (stencil_of t s) _ (fun i => f1 i + (sh i - feq i))) by auto.
    rewrite (mass_unscale (stencil_of t s) s). fold L. unfold mass. rewrite sumf_plus, sumf_minus.
    fold (mass L f1) (mass L sh) (mass L feq). rewrite Hm0, Hs0, Hmeq. unfold L. cbn [unscale st_Q]. ring.
  - intros a Ha. rewrite (momentum_ext (stencil_of t s) _ (fun i => f1 i + (sh i - feq i))) by auto.
    rewrite !(momentum_unscale (stencil_of t s) s Hs). fold L.
    transitivity (s * (momentum L f1 a + (momentum L sh a - momentum L feq a))).
    { f_equal. unfold momentum. rewrite <- sumf_minus, <- sumf_plus. apply sumf_ext. intros. ring. }
    destruct (Hj a Ha) as [He [kap [_ ->]]]. rewrite He, Hs1 by assumption. unfold mass.
    assert (Hvm : sumf (st_Q L) f * calculateVelocity L f (sumf (st_Q L) f) a = momentum L f a) by exact (vel_momentum t s f _ a Hs Hn0 Ha).
    rewrite <- Hvm. field. split; assumption.
  - assumption.
  - intros a Ha. rewrite Hu. apply stored_velocity; auto.
Qed.

(** The two forcing schemes run whenever the collision itself runs. *)
Lemma force_runs k q cfg t s nu dt F f u :
  closed_form t = true -> valid_setup cfg s nu dt -> carries_momentum q = true ->
  cc_forcing cfg = SHIFTING_VELOCITY \/ cc_forcing cfg = EXACT_DIFFERENCE ->
  dense (stencil_of t s) f -> runs_on k t cfg = true ->
  exists o, collide_node k q (make_genData cfg (Some F) (stencil_of t s) s nu dt) false f u = Ok o.
Proof.
  intros Ht Hv Hq Hm Hd Hrun. assert (Hs : s <> 0) by (destruct Hv; lra).
  unfold collide_node.
  rewrite (density_ok (st_Q (gd_L (make_genData cfg (Some F) (stencil_of t s) s nu dt))) f Hd). cbn [obind].
  set (gd := make_genData cfg (Some F) (stencil_of t s) s nu dt) in *.
  assert (HF : exists F', gd_force gd = Some F') by (eexists; reflexivity). destruct HF as [F' HF]. rewrite HF.
  unfold applyMacroscopicForces, applyForces, postCollisionApplyForces. change (gd_cfg gd) with cfg.
  destruct Hm as [-> | ->]; cbn [obind fst snd];
  match goal with |- context [relax k q gd f ?r ?w 1] =>
    destruct (proj2 (relax_runs k q cfg (Some F) t s nu dt f r w 1 Ht Hv Hq) Hrun) as [ff Hff]; fold gd in Hff; rewrite Hff
  end; cbn [obind].
  - eexists. reflexivity.
  - match goal with |- context [eq_calc q ?L ?g ?r ?w 1] =>
      destruct (eq_ok q t s g r w 1 Ht Hs Hq) as [sh [Hsh _]];
      change (unscale (stencil_of t s) s) with L in Hsh; rewrite Hsh end.
    cbn [obind]. eexists. reflexivity.
Qed.
(** Without a usable forcing scheme an external force is an error. *)
Lemma force_needs_scheme k q cfg st s nu dt F f u :
  cc_forcing cfg = NO_FORCING \/ cc_forcing cfg = GUO ->
  collide_node k q (make_genData cfg (Some F) st s nu dt) false f u = Throw.
Proof.
  intros Hm. unfold collide_node.
  set (gd := make_genData cfg (Some F) st s nu dt).
  destruct (calculateDensity (st_Q (gd_L gd)) f) as [r| |] eqn:Hd; cbn [obind]; [|reflexivity|].
  - assert (HF : exists F', gd_force gd = Some F') by (eexists; reflexivity). destruct HF as [F' HF]. rewrite HF.
    unfold applyMacroscopicForces. change (gd_cfg gd) with cfg. destruct Hm as [-> | ->]; reflexivity.
  - unfold calculateDensity in Hd. cbv zeta in Hd. destruct (Rlt_dec _ _); discriminate.
Qed.
