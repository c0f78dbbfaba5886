(** The single-node collision: mass, momentum, fixed points, forces. *)
From Coq Require Import QArith Qreals.
From Verif Require Import Prelude StencilData MRTData ModelStencils SpecStencils SpecCollision BigSum ProofStencils
  ProofWick ModelConfigNames ModelEquilibria ModelCollision SpecSetup ProofEquilibria ProofQuartic ProofEqMoments ProofRelax.
Open Scope R_scope.

(** ** Equilibria of the shipped stencils *)
Lemma eq_ok q t s gamma rho u T : closed_form t = true -> s <> 0 -> carries_momentum q = true ->
  exists feq, eq_calc q (unscale (stencil_of t s) s) gamma rho u T = Ok feq /\
    mass (unscale (stencil_of t s) s) feq = rho /\
    forall a, (a < st_D (stencil_of t s))%nat -> momentum (unscale (stencil_of t s) s) feq a = rho * u a.
Proof.
  intros Ht Hs Hq. set (L := unscale (stencil_of t s) s).
  pose proof (iso_unscaled t s (moment_order t) Ht Hs (le_n _)) as Hiso.
  pose proof (cs2_unscaled_neq0 t s Hs) as Hcs. pose proof (order5 t Ht) as Hn.
  destruct q; try discriminate; cbn [eq_calc].
  - exists (BGKEquilibrium_calc L rho u). split; [reflexivity|]. split.
    + rewrite (mass_ext L _ (BGKEquilibrium_generic L rho u)) by (intros i Hi; apply bgk_calc_generic; assumption).
      apply (bgk_mass L _ Hiso Hcs Hn).
    + intros a Ha. rewrite (momentum_ext L _ (BGKEquilibrium_generic L rho u)) by (intros i Hi; apply bgk_calc_generic; assumption).
      apply (bgk_momentum L _ Hiso Hcs Hn). assumption.
  - exists (QuarticEquilibrium_calc L rho u T). split; [reflexivity|]. split.
    + apply (q_mass L _ Hiso Hcs Hn). apply st_dim.
    + intros a Ha. apply (q_momentum L _ Hiso Hcs Hn); [apply st_dim|assumption].
  - exists (SteadyStateEquilibrium_calc L gamma rho u). split; [reflexivity|]. split.
    + apply (ss_mass L _ Hiso Hcs Hn).
    + intros a Ha. apply (ss_momentum L _ Hiso Hcs Hn). assumption.
Qed.

(** ** Velocity *)
Lemma vel_momentum t s f rho a : s <> 0 -> rho <> 0 -> (a < st_D (stencil_of t s))%nat ->
  rho * calculateVelocity (unscale (stencil_of t s) s) f rho a = momentum (unscale (stencil_of t s) s) f a.
Proof.
  intros Hs Hr Ha. rewrite velocity_generic by assumption. unfold calculateVelocity_generic, momentum.
  rewrite (sumf_ext _ (fun i => f i * st_e (unscale (stencil_of t s) s) i a)
                      (fun i => st_e (unscale (stencil_of t s) s) i a * f i)) by (intros; ring).
  field. assumption.
Qed.

(** ** Relaxation rates of momentum *)
Definition momentum_rate (k : T_collision) (gd : genData) (a : nat) : outcome R :=
  match k with
  | BGKCollision => Ok (1 / gd_tau gd)
  | Regularized => Ok 1
  | MultipleRelaxationTime =>
      obind (make_diag (st_Q (gd_L gd)) (gd_tau gd) (cc_mrt_basis (gd_cfg gd)) (cc_mrt_relax (gd_cfg gd)))
        (fun om => Ok (om (mom_row (st_Q (gd_L gd)) a)))
  end.

Lemma make_M_Q Qn b M : make_M Qn b = Ok M -> Qn = 9%nat \/ Qn = 19%nat.
Proof.
  unfold make_M. destruct (Nat.eqb Qn 9) eqn:E; [apply Nat.eqb_eq in E; auto|].
  destruct (Nat.eqb Qn 19) eqn:E2; [apply Nat.eqb_eq in E2; auto|discriminate].
Qed.

Lemma relax_momentum k q gd t s f rho u T f' feq :
  closed_form t = true -> s <> 0 -> carries_momentum q = true ->
  gd_L gd = unscale (stencil_of t s) s ->
  rho = mass (gd_L gd) f ->
  relax k q gd f rho u T = Ok (f', feq) ->
  mass (gd_L gd) f' = rho /\ mass (gd_L gd) feq = rho /\
  eq_calc q (gd_L gd) (gd_gamma_ss gd) rho u T = Ok feq /\
  forall a, (a < st_D (stencil_of t s))%nat -> momentum (gd_L gd) feq a = rho * u a /\
    exists kap, momentum_rate k gd a = Ok kap /\
    momentum (gd_L gd) f' a = momentum (gd_L gd) f a - kap * (momentum (gd_L gd) f a - rho * u a).
Proof.
  intros Ht Hs Hq HL Hrho Hrel. unfold relax in Hrel. rewrite HL in *.
  destruct (eq_ok q t s (gd_gamma_ss gd) rho u T Ht Hs Hq) as [g [Hg [Hg0 Hg1]]].
  rewrite Hg in Hrel. cbn [obind] in Hrel.
  pose proof (iso_unscaled t s (moment_order t) Ht Hs (le_n _)) as Hiso.
  pose proof (cs2_unscaled_neq0 t s Hs) as Hcs. pose proof (order5 t Ht) as Hn.
  set (L := unscale (stencil_of t s) s) in *.
  destruct k.
  - injection Hrel as <- <-. split; [|split; [assumption|split; [assumption|]]].
    + rewrite bgk_relax_mass, Hg0, <- Hrho. ring.
    + intros a Ha. split; [auto|]. exists (1 / gd_tau gd). split; [reflexivity|].
      rewrite bgk_relax_momentum, Hg1 by assumption. reflexivity.
  - injection Hrel as <- <-. split; [|split; [assumption|split; [assumption|]]].
    + rewrite (reg_mass L _ Hiso) by assumption. assumption.
    + intros a Ha. split; [auto|]. exists 1. split; [reflexivity|].
      rewrite (reg_momentum L _ Hiso), Hg1 by assumption. ring.
  - destruct (make_M (st_Q L) (cc_mrt_basis (gd_cfg gd))) as [M| |] eqn:HM; try discriminate. cbn [obind] in Hrel.
    destruct (make_T (st_Q L) (cc_mrt_basis (gd_cfg gd))) as [Ti| |] eqn:HT; try discriminate. cbn [obind] in Hrel.
    destruct (make_diag (st_Q L) (gd_tau gd) (cc_mrt_basis (gd_cfg gd)) (cc_mrt_relax (gd_cfg gd))) as [om| |] eqn:HD;
      try discriminate. cbn [obind] in Hrel. injection Hrel as <- <-.
    assert (HQ : (0 < st_Q L)%nat) by (destruct (make_M_Q _ _ _ HM) as [-> | ->]; lia).
    split; [|split; [assumption|split; [assumption|]]].
    + unfold mass at 1. rewrite <- (mrt_row0 _ _ _ _ HM), (mrt_moment _ _ _ _ _ _ _ _ HM HT HQ), !(mrt_row0 _ _ _ _ HM).
      fold (mass L f) (mass L g). rewrite Hg0, <- Hrho. ring.
    + intros a Ha. split; [auto|]. exists (om (mom_row (st_Q L) a)).
      unfold momentum_rate. rewrite HL. fold L. rewrite HD. split; [reflexivity|].
      destruct t; try discriminate Ht; try (exfalso; destruct (make_M_Q _ _ _ HM) as [HQ'|HQ']; discriminate HQ').
      * change (st_Q L) with 9%nat in *. change (mom_row 9 a) with (S a).
        change (st_D (stencil_of Stencil_D2Q9 s)) with 2%nat in Ha.
        rewrite <- Hg1 by assumption. unfold L. cbn [stencil_of].
        rewrite <- !(mrt_row_9 _ M s _ a Hs HM Ha).
        apply (mrt_moment _ _ _ _ _ _ _ _ HM HT). lia.
      * change (st_Q L) with 19%nat in *. change (mom_row 19 a) with (3 + 2 * a)%nat.
        change (st_D (stencil_of Stencil_D3Q19 s)) with 3%nat in Ha.
        rewrite <- Hg1 by assumption. unfold L. cbn [stencil_of].
        rewrite <- !(mrt_row_19 _ M s _ a Hs HM Ha).
        apply (mrt_moment _ _ _ _ _ _ _ _ HM HT). lia.
Qed.

(** ** The constants of a run *)
Lemma cs2_pos t s : s <> 0 -> 0 < st_cs2 (stencil_of t s).
Proof.
  intros Hs. assert (0 < s * s) by nra.
  destruct t; cbn [stencil_of st_cs2 D2Q9 D3Q15 D3Q19 D3Q27 RD3Q27 D3V27 D2Q19V D2Q19H D3Q45 D3Q77 D2Q777 D3Q13 D3Q21 D2Q25H];
  apply Rdiv_lt_0_compat; lra.
Qed.

Lemma tau_pos cfg F t s nu dt : valid_setup cfg s nu dt ->
  1/2 < gd_tau (make_genData cfg F (stencil_of t s) s nu dt).
Proof.
  intros [Hs [Hnu [Hdt Hg]]]. assert (Hc : 0 < st_cs2 (stencil_of t s)) by (apply cs2_pos; lra).
  unfold make_genData, calculateTauFromNu, calculateTauFromNuAndgamma. cbn [gd_tau].
  assert (H1 : 0 < nu / (dt * st_cs2 (stencil_of t s))) by (apply Rdiv_lt_0_compat; nra).
  assert (H2 : 0 < nu / (cc_ss_gamma cfg * dt * st_cs2 (stencil_of t s))).
  { apply Rdiv_lt_0_compat; [assumption|]. apply Rmult_lt_0_compat; [apply Rmult_lt_0_compat|]; assumption. }
  destruct (cc_equilibrium cfg); lra.
Qed.

Lemma density_ok Qn f : 1 / 10^10 <= sumf Qn f -> calculateDensity Qn f = Ok (sumf Qn f).
Proof. intros H. unfold calculateDensity. cbv zeta. destruct (Rlt_dec (sumf Qn f) (1 / 10^10)); [lra|reflexivity]. Qed.
Lemma density_inv Qn f rho : calculateDensity Qn f = Ok rho -> rho = sumf Qn f /\ 1 / 10^10 <= rho.
Proof.
  unfold calculateDensity. cbv zeta. destruct (Rlt_dec (sumf Qn f) (1 / 10^10)); [discriminate|].
  intros H. injection H as <-. split; [reflexivity|lra].
Qed.
Lemma dens_neq0 x : 1 / 10^10 <= x -> x <> 0.
Proof. intros H. assert (0 < 1 / 10^10) by (apply Rdiv_lt_0_compat; [lra|apply pow_lt; lra]). lra. Qed.

(** ** Collision without forces *)
Lemma node_inv k q gd f u o : gd_force gd = None -> collide_node k q gd false f u = Ok o ->
  let rho := sumf (st_Q (gd_L gd)) f in
  1 / 10^10 <= rho /\ no_rho o = rho /\
  (forall a, no_u o a = calculateVelocity (gd_L gd) f rho a * gd_scaling gd) /\
  exists feq, relax k q gd f rho (calculateVelocity (gd_L gd) f rho) 1 = Ok (no_f o, feq).
Proof.
  intros HF H rho. unfold collide_node in H.
  destruct (calculateDensity (st_Q (gd_L gd)) f) as [r| |] eqn:Hd; try discriminate. cbn [obind] in H.
  apply density_inv in Hd. destruct Hd as [Hr Hd]. rewrite HF in H. cbn [obind fst snd] in H.
  destruct (relax k q gd f r (calculateVelocity (gd_L gd) f r) 1) as [[f' feq]| |] eqn:Hrel; try discriminate.
  cbn [obind] in H. injection H as <-. cbn [no_f no_rho no_u fst]. fold rho in Hr. subst r.
  repeat split; try assumption. exists feq. assumption.
Qed.

Lemma node_fwd k q gd f u f' feq : gd_force gd = None ->
  let rho := sumf (st_Q (gd_L gd)) f in
  1 / 10^10 <= rho ->
  relax k q gd f rho (calculateVelocity (gd_L gd) f rho) 1 = Ok (f', feq) ->
  exists o, collide_node k q gd false f u = Ok o /\ no_f o = f'.
Proof.
  intros HF rho Hd H. unfold collide_node. rewrite (density_ok _ _ Hd). cbn [obind]. rewrite HF. cbn [obind fst snd].
  fold rho. rewrite H. cbn [obind fst]. eexists. split; reflexivity.
Qed.

Lemma collide_conserves k q cfg t s nu dt f u o :
  closed_form t = true -> s <> 0 -> carries_momentum q = true ->
  collide_node k q (make_genData cfg None (stencil_of t s) s nu dt) false f u = Ok o ->
  conserves (stencil_of t s) f (no_f o) /\ no_rho o = mass (stencil_of t s) f /\
  (forall a, (a < st_D (stencil_of t s))%nat -> no_u o a = momentum (stencil_of t s) f a / mass (stencil_of t s) f).
Proof.
  intros Ht Hs Hq H. set (gd := make_genData cfg None (stencil_of t s) s nu dt) in *.
  destruct (node_inv k q gd f u o eq_refl H) as [Hd [Hrho [Hu [feq Hrel]]]].
  change (gd_L gd) with (unscale (stencil_of t s) s) in *.
  destruct (relax_momentum k q gd t s f _ _ _ _ _ Ht Hs Hq eq_refl eq_refl Hrel) as [Hm [_ [_ Hj]]].
  change (gd_L gd) with (unscale (stencil_of t s) s) in *. change (gd_scaling gd) with s in Hu.
  assert (Hn0 : sumf (st_Q (unscale (stencil_of t s) s)) f <> 0) by (apply dens_neq0; assumption).
  split; [split|split].
  - rewrite (mass_unscale (stencil_of t s) s), Hm. reflexivity.
  - intros a Ha. rewrite !(momentum_unscale (stencil_of t s) s Hs). destruct (Hj a Ha) as [_ [kap [_ ->]]].
    rewrite vel_momentum by assumption. ring.
  - assumption.
  - intros a Ha. rewrite Hu, (momentum_unscale (stencil_of t s) s Hs), <- (vel_momentum t s f (sumf (st_Q (unscale (stencil_of t s) s)) f)) by assumption.
    unfold mass. cbn [unscale st_Q]. field. assumption.
Qed.

(** When does the collision run? *)
Lemma relax_runs k q cfg F t s nu dt f rho u T :
  closed_form t = true -> valid_setup cfg s nu dt -> carries_momentum q = true ->
  ((exists r, relax k q (make_genData cfg F (stencil_of t s) s nu dt) f rho u T = Ok r) <-> runs_on k t cfg = true).
Proof.
  intros Ht Hv Hq. pose proof (tau_pos cfg F t s nu dt Hv) as Htau.
  assert (Hs : s <> 0) by (destruct Hv; lra).
  set (gd := make_genData cfg F (stencil_of t s) s nu dt) in *.
  destruct (eq_ok q t s (gd_gamma_ss gd) rho u T Ht Hs Hq) as [g [Hg _]].
  unfold relax. change (gd_L gd) with (unscale (stencil_of t s) s). rewrite Hg. cbn [obind].
  change (st_Q (unscale (stencil_of t s) s)) with (st_Q (stencil_of t s)). change (gd_cfg gd) with cfg.
  destruct k; cbn [runs_on].
  - split; eauto.
  - split; eauto.
  - destruct t; try discriminate Ht; cbn [stencil_of st_Q D2Q9 D3Q19 D3Q15 D3Q27 D3Q13 RD3Q27 D2Q25H];
      unfold make_M, make_T, make_diag; cbn [Nat.eqb]; cbn [obind];
      try (split; [intros [r Hr]; discriminate Hr|destruct (cc_mrt_basis cfg), (cc_mrt_relax cfg); discriminate]).
    + destruct (cc_mrt_basis cfg), (cc_mrt_relax cfg); cbn [obind make_diag_9 mrt_accepts];
        (split; [intros [r' Hr]; first [reflexivity|discriminate Hr]|intros Hx; first [discriminate Hx|eexists; reflexivity]]).
    + destruct (cc_mrt_basis cfg), (cc_mrt_relax cfg); cbn [obind make_diag_19 mrt_accepts];
        try (unfold make_diag_19; destruct (Rlt_dec (1/2) (gd_tau gd)); [|contradiction]; cbn [obind]);
        (split; [intros [r' Hr]; first [reflexivity|discriminate Hr]|intros Hx; first [discriminate Hx|eexists; reflexivity]]).
Qed.

Lemma collide_runs k q cfg t s nu dt f u :
  closed_form t = true -> valid_setup cfg s nu dt -> carries_momentum q = true -> dense (stencil_of t s) f ->
  ((exists o, collide_node k q (make_genData cfg None (stencil_of t s) s nu dt) false f u = Ok o) <-> runs_on k t cfg = true).
Proof.
  intros Ht Hv Hq Hd. set (gd := make_genData cfg None (stencil_of t s) s nu dt) in *.
  rewrite <- (relax_runs k q cfg None t s nu dt f (sumf (st_Q (gd_L gd)) f) (calculateVelocity (gd_L gd) f (sumf (st_Q (gd_L gd)) f)) 1 Ht Hv Hq).
  fold gd. split.
  - intros [o Ho]. destruct (node_inv k q gd f u o eq_refl Ho) as [_ [_ [_ [feq Hr]]]]. eauto.
  - intros [[f' feq] Hr]. destruct (node_fwd k q gd f u f' feq eq_refl Hd Hr) as [o [Ho _]]. eauto.
Qed.
