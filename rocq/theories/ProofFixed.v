(** Fixed points of the collision, stress relaxation, regularised collision, MRT modes. *)
From Coq Require Import QArith Qreals.
From Verif Require Import Prelude StencilData MRTData ModelStencils SpecStencils SpecCollision BigSum ProofStencils
  ProofWick ModelConfigNames ModelEquilibria ModelCollision SpecSetup ProofEquilibria ProofQuartic ProofEqMoments ProofRelax
  ProofCollideNode ProofForces.
Open Scope R_scope.

(** ** Equilibria depend only on the first D velocity components *)
Lemma ue_ext L u u' i : (forall a, (a < st_D L)%nat -> u a = u' a) -> ue_term L u i = ue_term L u' i.
Proof. intros H. apply sumf_ext. intros j Hj. rewrite (H j Hj). reflexivity. Qed.
Lemma uu_ext L u u' : (forall a, (a < st_D L)%nat -> u a = u' a) -> uu_term L u = uu_term L u'.
Proof. intros H. apply sumf_ext. intros j Hj. rewrite (H j Hj). reflexivity. Qed.

Lemma eq_ext q L gamma rho u u' T g g' : st_D L = 2%nat \/ st_D L = 3%nat ->
  (forall a, (a < st_D L)%nat -> u a = u' a) ->
  eq_calc q L gamma rho u T = Ok g -> eq_calc q L gamma rho u' T = Ok g' -> forall i, g i = g' i.
Proof.
  intros HD H Hg Hg' i. pose proof (ue_ext L u u' i H) as E1. pose proof (uu_ext L u u' H) as E2.
  assert (H0 : u 0%nat = u' 0%nat) by (apply H; lia). assert (H1 : u 1%nat = u' 1%nat) by (apply H; lia).
  destruct q; cbn [eq_calc] in Hg, Hg'; try discriminate; injection Hg as <-; injection Hg' as <-.
  - unfold BGKEquilibrium_calc. destruct (is_DQ L 2 9).
    + unfold BGKEquilibrium_2_9. rewrite H0, H1. reflexivity.
    + unfold BGKEquilibrium_generic. rewrite E1, E2. reflexivity.
  - unfold QuarticEquilibrium_calc. rewrite E1, E2, H0, H1. destruct HD as [E|E].
    + rewrite E. reflexivity.
    + assert (H2 : u 2%nat = u' 2%nat) by (apply H; lia). rewrite H2. reflexivity.
  - unfold SteadyStateEquilibrium_calc. rewrite E1, E2. reflexivity.
  - unfold IncompressibleEquilibrium_calc. rewrite E1, E2. reflexivity.
Qed.

(** ** Relaxing an equilibrium *)
Lemma relax_fixed k q gd f rho u T f' feq :
  relax k q gd f rho u T = Ok (f', feq) -> (forall i, (i < st_Q (gd_L gd))%nat -> f i = feq i) ->
  forall i, (i < st_Q (gd_L gd))%nat -> f' i = f i.
Proof.
  intros H Heq i Hi. unfold relax in H.
  destruct (eq_calc q (gd_L gd) (gd_gamma_ss gd) rho u T) as [g| |]; try discriminate. cbn [obind] in H.
  destruct k.
  - injection H as <- <-. unfold relax_BGK. rewrite (Heq i Hi). ring.
  - injection H as <- <-. rewrite reg_split.
    assert (Hz : her2 (gd_L gd) (fun b c => moment2 (gd_L gd) f b c - moment2 (gd_L gd) g b c) i = 0).
    { unfold her2. apply sumf_zero. intros b _. apply sumf_zero. intros c _.
      rewrite (moment2_ext (gd_L gd) f g b c Heq). unfold Rdiv. ring. }
    rewrite Hz, (Heq i Hi). ring.
  - destruct (make_M _ _) as [M| |] eqn:HM; try discriminate. cbn [obind] in H.
    destruct (make_T _ _) as [Ti| |] eqn:HT; try discriminate. cbn [obind] in H.
    destruct (make_diag _ _ _ _) as [om| |]; try discriminate. cbn [obind] in H. injection H as <- <-.
    rewrite (mrt_bgk _ _ _ _ om 1 f g HM HT); [|intros r Hr; right; apply sumf_ext; intros j Hj; rewrite (Heq j Hj); reflexivity|assumption].
    unfold relax_BGK. rewrite (Heq i Hi). field.
Qed.

Lemma eqpop_moments q cfg t s rho v f : closed_form t = true -> s <> 0 -> carries_momentum q = true ->
  forall T, equilibrium_populations q cfg (stencil_of t s) s rho v T f ->
  mass (stencil_of t s) f = rho /\ forall a, (a < st_D (stencil_of t s))%nat -> momentum (stencil_of t s) f a = rho * v a.
Proof.
  intros Ht Hs Hq T [g [Hg Hf]].
  match type of Hg with eq_calc _ _ ?ga _ ?w _ = _ => destruct (eq_ok q t s ga rho w T Ht Hs Hq) as [g' [Hg' [H0 H1]]] end.
  rewrite Hg in Hg'. injection Hg' as <-. split.
  - rewrite (mass_ext (stencil_of t s) f g Hf), (mass_unscale (stencil_of t s) s). assumption.
  - intros a Ha. rewrite (momentum_ext (stencil_of t s) f g a Hf), (momentum_unscale (stencil_of t s) s Hs), H1 by assumption.
    field. assumption.
Qed.

Lemma collide_fixes k q cfg t s nu dt rho v f u :
  closed_form t = true -> valid_setup cfg s nu dt -> carries_momentum q = true -> runs_on k t cfg = true ->
  1 / 10^10 <= rho -> equilibrium_populations q cfg (stencil_of t s) s rho v 1 f ->
  exists o, collide_node k q (make_genData cfg None (stencil_of t s) s nu dt) false f u = Ok o /\
    (forall i, (i < st_Q (stencil_of t s))%nat -> no_f o i = f i) /\
    no_rho o = rho /\ forall a, (a < st_D (stencil_of t s))%nat -> no_u o a = v a.
Proof.
  intros Ht Hv Hq Hrun Hd Hf. assert (Hs : s <> 0) by (destruct Hv; lra).
  destruct (eqpop_moments q cfg t s rho v f Ht Hs Hq 1 Hf) as [Hm Hj].
  assert (Hdf : dense (stencil_of t s) f) by (unfold dense; rewrite Hm; assumption).
  destruct (proj2 (collide_runs k q cfg t s nu dt f u Ht Hv Hq Hdf) Hrun) as [o Ho].
  exists o. split; [assumption|].
  destruct (collide_conserves k q cfg t s nu dt f u o Ht Hs Hq Ho) as [_ [Hr Hu]].
  split; [|split].
  - set (gd := make_genData cfg None (stencil_of t s) s nu dt) in *.
    destruct (node_inv k q gd f u o eq_refl Ho) as [_ [_ [_ [feq Hrel]]]].
    apply (relax_fixed k q gd _ _ _ _ _ _ Hrel). intros i Hi.
    destruct Hf as [g [Hg Hfg]]. rewrite (Hfg i Hi).
    assert (Heq : eq_calc q (gd_L gd) (gd_gamma_ss gd) (sumf (st_Q (gd_L gd)) f) (calculateVelocity (gd_L gd) f (sumf (st_Q (gd_L gd)) f)) 1 = Ok feq).
    { unfold relax in Hrel. destruct (eq_calc q (gd_L gd) (gd_gamma_ss gd) (sumf (st_Q (gd_L gd)) f) _ 1) as [g'| |] eqn:E; try discriminate.
      cbn [obind] in Hrel. destruct k; try (injection Hrel; intros; subst; reflexivity).
      destruct (make_M _ _); try discriminate. cbn [obind] in Hrel. destruct (make_T _ _); try discriminate. cbn [obind] in Hrel.
      destruct (make_diag _ _ _ _); try discriminate. cbn [obind] in Hrel. injection Hrel; intros; subst; reflexivity. }
    change (sumf (st_Q (gd_L gd)) f) with (mass (stencil_of t s) f) in Heq. rewrite Hm in Heq.
    replace (match cc_equilibrium cfg with STEADYSTATE_EQUILIBRIUM => cc_ss_gamma cfg | _ => 1 end) with (gd_gamma_ss gd) in Hg
      by (unfold gd, make_genData; cbn [gd_gamma_ss]; destruct (cc_equilibrium cfg); reflexivity).
    refine (eq_ext q (gd_L gd) _ rho _ _ 1 g feq _ _ Hg Heq i).
    + apply st_dim.
    + intros a Ha. change (st_D (gd_L gd)) with (st_D (stencil_of t s)) in Ha.
      assert (Hr0 : rho <> 0) by (apply dens_neq0; assumption).
      apply (Rmult_eq_reg_l rho); [|assumption].
      change (gd_L gd) with (unscale (stencil_of t s) s). rewrite (vel_momentum t s f rho a Hs Hr0 Ha).
      apply (Rmult_eq_reg_l s); [|assumption]. rewrite <- (momentum_unscale (stencil_of t s) s Hs), (Hj a Ha). field. assumption.
  - rewrite Hr. assumption.
  - intros a Ha. rewrite (Hu a Ha), (Hj a Ha), Hm. field. apply dens_neq0; assumption.
Qed.

(** ** Stress relaxation (BGK equilibrium) *)
Lemma stress_relax k cfg t s nu dt f u o :
  closed_form t = true -> valid_setup cfg s nu dt -> cc_equilibrium cfg <> STEADYSTATE_EQUILIBRIUM ->
  k = BGKCollision \/ k = Regularized ->
  collide_node k BGKEquilibrium (make_genData cfg None (stencil_of t s) s nu dt) false f u = Ok o ->
  let tau := nu / (dt * st_cs2 (stencil_of t s)) + 1/2 in
  forall a b, (a < st_D (stencil_of t s))%nat -> (b < st_D (stencil_of t s))%nat ->
  stress (stencil_of t s) (no_f o) a b = (1 - 1 / tau) * stress (stencil_of t s) f a b.
Proof.
  intros Ht Hv Hss Hk H tau a b Ha Hb. assert (Hs : s <> 0) by (destruct Hv; lra).
  pose proof (tau_pos cfg None t s nu dt Hv) as Htau.
  pose proof (tau_gd cfg None (stencil_of t s) s nu dt Hss) as Htg. fold tau in Htg.
  destruct (collide_conserves k BGKEquilibrium cfg t s nu dt f u o Ht Hs eq_refl H) as [[Hc0 Hc1] _].
  set (gd := make_genData cfg None (stencil_of t s) s nu dt) in *.
  destruct (node_inv k _ gd f u o eq_refl H) as [Hd [_ [_ [feq Hrel]]]].
  unfold stress. rewrite Hc0, !Hc1 by assumption.
  change (gd_L gd) with (unscale (stencil_of t s) s) in *. set (L := unscale (stencil_of t s) s) in *.
  pose proof (iso_unscaled t s (moment_order t) Ht Hs (le_n _)) as Hiso.
  pose proof (cs2_unscaled_neq0 t s Hs) as Hcs. pose proof (order5 t Ht) as Hn. fold L in Hiso, Hcs.
  set (rho := sumf (st_Q L) f) in *. assert (Hr0 : rho <> 0) by (apply dens_neq0; assumption).
  assert (H2 : moment2 L (no_f o) a b = moment2 L f a b - 1 / tau * (moment2 L f a b - moment2 L feq a b)).
  { unfold relax in Hrel. cbn [eq_calc obind] in Hrel. rewrite Htg in Hrel.
    destruct Hk as [-> | ->]; injection Hrel as <- <-.
    - apply bgk_relax_moment2.
    - change (gd_L gd) with L. rewrite (reg_moment2 L _ Hiso) by assumption. ring. }
  assert (Hfeq : moment2 L feq a b = rho * (st_cs2 L * delta a b + calculateVelocity L f rho a * calculateVelocity L f rho b)).
  { unfold relax in Hrel. cbn [eq_calc obind] in Hrel. change (gd_L gd) with L in Hrel.
    assert (E : feq = BGKEquilibrium_calc L rho (calculateVelocity L f rho)) by (destruct Hk as [-> | ->]; injection Hrel; intros; congruence).
    rewrite E, (moment2_ext L _ (BGKEquilibrium_generic L rho (calculateVelocity L f rho))) by (intros i Hi; apply bgk_calc_generic; assumption).
    apply (bgk_moment2 L _ Hiso); assumption. }
  assert (Hja : rho * calculateVelocity L f rho a = momentum L f a) by exact (vel_momentum t s f rho a Hs Hr0 Ha).
  assert (Hjb : rho * calculateVelocity L f rho b = momentum L f b) by exact (vel_momentum t s f rho b Hs Hr0 Hb).
  rewrite !(moment2_unscale (stencil_of t s) s Hs), !(momentum_unscale (stencil_of t s) s Hs). fold L.
  rewrite H2, Hfeq, <- Hja, <- Hjb.
  assert (Ecs : st_cs2 (stencil_of t s) = s * s * st_cs2 L) by (unfold L; cbn [unscale st_cs2]; field; assumption).
  rewrite Ecs. change (mass (stencil_of t s) f) with rho. assert (tau <> 0) by lra. field. repeat split; assumption.
Qed.

(** ** The regularised collision sees only density, momentum and second moment *)
Lemma reg_depends q cfg t s nu dt f f' u u' o :
  closed_form t = true -> valid_setup cfg s nu dt -> carries_momentum q = true ->
  mass (stencil_of t s) f = mass (stencil_of t s) f' ->
  (forall a, (a < st_D (stencil_of t s))%nat -> momentum (stencil_of t s) f a = momentum (stencil_of t s) f' a) ->
  (forall a b, (a < st_D (stencil_of t s))%nat -> (b < st_D (stencil_of t s))%nat ->
      moment2 (stencil_of t s) f a b = moment2 (stencil_of t s) f' a b) ->
  collide_node Regularized q (make_genData cfg None (stencil_of t s) s nu dt) false f u = Ok o ->
  exists o', collide_node Regularized q (make_genData cfg None (stencil_of t s) s nu dt) false f' u' = Ok o' /\
    forall i, no_f o' i = no_f o i.
Proof.
  intros Ht Hv Hq H0 H1 H2 H. assert (Hs : s <> 0) by (destruct Hv; lra).
  set (gd := make_genData cfg None (stencil_of t s) s nu dt) in *.
  destruct (node_inv Regularized q gd f u o eq_refl H) as [Hd [_ [_ [feq Hrel]]]].
  assert (Hd' : dense (stencil_of t s) f') by (unfold dense; rewrite <- H0; exact Hd).
  destruct (proj2 (collide_runs Regularized q cfg t s nu dt f' u' Ht Hv Hq Hd') eq_refl) as [o' Ho']. fold gd in Ho'.
  exists o'. split; [assumption|]. intros i.
  destruct (node_inv Regularized q gd f' u' o' eq_refl Ho') as [_ [_ [_ [feq' Hrel']]]].
  change (gd_L gd) with (unscale (stencil_of t s) s) in *. set (L := unscale (stencil_of t s) s) in *.
  change (sumf (st_Q L) f) with (mass (stencil_of t s) f) in *. change (sumf (st_Q L) f') with (mass (stencil_of t s) f') in *.
  rewrite <- H0 in Hrel'. set (rho := mass (stencil_of t s) f) in *. assert (Hr0 : rho <> 0) by (apply dens_neq0; assumption).
  unfold relax in Hrel, Hrel'. change (gd_L gd) with L in *.
  destruct (eq_calc q L (gd_gamma_ss gd) rho (calculateVelocity L f rho) 1) as [g| |] eqn:E; try discriminate.
  destruct (eq_calc q L (gd_gamma_ss gd) rho (calculateVelocity L f' rho) 1) as [g'| |] eqn:E'; try discriminate.
  cbn [obind] in Hrel, Hrel'. injection Hrel as <- _. injection Hrel' as <- _.
  assert (Hv' : forall a, (a < st_D L)%nat -> calculateVelocity L f rho a = calculateVelocity L f' rho a).
  { intros a Ha. apply (Rmult_eq_reg_l rho); [|assumption]. unfold L. rewrite !(vel_momentum t s _ rho a Hs Hr0 Ha).
    apply (Rmult_eq_reg_l s); [|assumption]. rewrite <- !(momentum_unscale (stencil_of t s) s Hs). apply H1. assumption. }
  assert (HD : st_D L = 2%nat \/ st_D L = 3%nat) by apply st_dim.
  pose proof (eq_ext q L _ rho _ _ 1 g g' HD Hv' E E') as Heq.
  assert (H2' : forall a b, (a < st_D L)%nat -> (b < st_D L)%nat -> moment2 L f a b = moment2 L f' a b).
  { intros a b Ha Hb. apply (Rmult_eq_reg_l (s * s)); [|nra]. rewrite <- !(moment2_unscale (stencil_of t s) s Hs). apply H2; assumption. }
  unfold relax_Regularized. cbv zeta beta. rewrite (Heq i). f_equal. f_equal.
  apply sumf_ext. intros b Hb. apply sumf_ext. intros c Hc. f_equal. f_equal.
  - symmetry. apply H2'; assumption.
  - apply sumf_ext. intros j Hj. rewrite (Heq j). reflexivity.
Qed.

(** ** Incompressible equilibrium *)
Lemma incompressible_momentum cfg t s nu dt f u o :
  closed_form t = true -> valid_setup cfg s nu dt -> cc_equilibrium cfg <> STEADYSTATE_EQUILIBRIUM ->
  collide_node BGKCollision IncompressibleEquilibrium (make_genData cfg None (stencil_of t s) s nu dt) false f u = Ok o ->
  let tau := nu / (dt * st_cs2 (stencil_of t s)) + 1/2 in
  mass (stencil_of t s) (no_f o) = mass (stencil_of t s) f /\
  forall a, (a < st_D (stencil_of t s))%nat ->
   momentum (stencil_of t s) (no_f o) a =
   momentum (stencil_of t s) f a - 1 / tau * (momentum (stencil_of t s) f a - momentum (stencil_of t s) f a / mass (stencil_of t s) f).
Proof.
  intros Ht Hv Hss H tau. assert (Hs : s <> 0) by (destruct Hv; lra).
  pose proof (tau_pos cfg None t s nu dt Hv) as Htau.
  pose proof (tau_gd cfg None (stencil_of t s) s nu dt Hss) as Htg. fold tau in Htg.
  set (gd := make_genData cfg None (stencil_of t s) s nu dt) in *.
  destruct (node_inv _ _ gd f u o eq_refl H) as [Hd [_ [_ [feq Hrel]]]].
  change (gd_L gd) with (unscale (stencil_of t s) s) in *. set (L := unscale (stencil_of t s) s) in *.
  pose proof (iso_unscaled t s (moment_order t) Ht Hs (le_n _)) as Hiso.
  pose proof (cs2_unscaled_neq0 t s Hs) as Hcs. pose proof (order5 t Ht) as Hn. fold L in Hiso, Hcs.
  set (rho := sumf (st_Q L) f) in *. assert (Hr0 : rho <> 0) by (apply dens_neq0; assumption).
  unfold relax in Hrel. cbn [eq_calc obind] in Hrel. change (gd_L gd) with L in Hrel. rewrite Htg in Hrel.
  injection Hrel as <- _. split.
  - rewrite (mass_unscale (stencil_of t s) s). fold L. rewrite bgk_relax_mass, (inc_mass L _ Hiso) by assumption.
    change (mass L f) with rho. change (mass (stencil_of t s) f) with rho. ring.
  - intros a Ha. rewrite !(momentum_unscale (stencil_of t s) s Hs). fold L.
    rewrite bgk_relax_momentum, (inc_momentum L _ Hiso) by assumption.
    assert (Hja : rho * calculateVelocity L f rho a = momentum L f a) by exact (vel_momentum t s f rho a Hs Hr0 Ha).
    rewrite <- Hja. change (mass (stencil_of t s) f) with rho. assert (tau <> 0) by lra. field. repeat split; assumption.
Qed.

(** ** Ghost modes of the Dellar basis *)
Lemma dellar_N f : matvec 9 (matR MRTDellarD2Q9_M) f 6 = ghost_N f.
Proof.
  apply sumf_ext. intros i Hi. f_equal. unfold matR, ghost_g. cbn [nth MRTDellarD2Q9_M].
  do 9 (destruct i as [|i]; [cbn [nth]; unfold Q2R; cbn; lra|]). lia.
Qed.
Lemma dellar_J f a : (a < 2)%nat -> matvec 9 (matR MRTDellarD2Q9_M) f (7 + a) = ghost_J f a.
Proof.
  intros Ha. apply sumf_ext. intros i Hi. f_equal. unfold matR, ghost_g. cbn [D2Q9 st_e].
  destruct a as [|[|a]]; [| |lia]; cbn [nth MRTDellarD2Q9_M Nat.add];
  do 9 (destruct i as [|i]; [cbn [nth]; lit; cbn [nth]; field|]); lia.
Qed.

Lemma dellar_only_N cfg s nu dt f u o :
  valid_setup cfg s nu dt -> cc_equilibrium cfg <> STEADYSTATE_EQUILIBRIUM ->
  cc_mrt_basis cfg = DELLAR_D2Q9 -> cc_mrt_relax cfg = DELLAR_RELAX_ONLY_N ->
  collide_node MultipleRelaxationTime BGKEquilibrium (make_genData cfg None (D2Q9 s) s nu dt) false f u = Ok o ->
  let tau := nu / (dt * st_cs2 (D2Q9 s)) + 1/2 in
  exists feq, equilibrium_populations BGKEquilibrium cfg (D2Q9 s) s (mass (D2Q9 s) f)
                (fun a => momentum (D2Q9 s) f a / mass (D2Q9 s) f) 1 feq /\
    ghost_J (no_f o) 1 = ghost_J feq 1 /\
    ghost_J (no_f o) 0 = ghost_J f 0 - 1 / tau * (ghost_J f 0 - ghost_J feq 0) /\
    ghost_N (no_f o) = ghost_N f - 1 / tau * (ghost_N f - ghost_N feq) /\
    (forall a b, (a < 2)%nat -> (b < 2)%nat ->
      moment2 (D2Q9 s) (no_f o) a b = moment2 (D2Q9 s) f a b - 1 / tau * (moment2 (D2Q9 s) f a b - moment2 (D2Q9 s) feq a b)) /\
    (ghost_J f 1 = ghost_J feq 1 -> forall i, (i < 9)%nat -> no_f o i = f i - 1 / tau * (f i - feq i)).
Proof.
  intros Hv Hss Hb Hr H tau. assert (Hs : s <> 0) by (destruct Hv; lra).
  pose proof (tau_pos cfg None Stencil_D2Q9 s nu dt Hv) as Htau.
  pose proof (tau_gd cfg None (D2Q9 s) s nu dt Hss) as Htg. fold tau in Htg. cbn [stencil_of] in Htau.
  set (gd := make_genData cfg None (D2Q9 s) s nu dt) in *.
  destruct (node_inv _ _ gd f u o eq_refl H) as [Hd [_ [_ [feq Hrel]]]].
  change (gd_L gd) with (unscale (D2Q9 s) s) in *. set (L := unscale (D2Q9 s) s) in *.
  change (sumf (st_Q L) f) with (mass (D2Q9 s) f) in *. set (rho := mass (D2Q9 s) f) in *.
  assert (Hr0 : rho <> 0) by (apply dens_neq0; assumption).
  unfold relax in Hrel. cbn [eq_calc obind] in Hrel. change (gd_L gd) with L in Hrel. change (gd_cfg gd) with cfg in Hrel.
  rewrite Hb, Hr, Htg in Hrel. unfold make_M, make_T, make_diag in Hrel.
  change (st_Q L) with 9%nat in Hrel. cbn [Nat.eqb obind make_diag_9] in Hrel.
  injection Hrel. intros Efeq Eo. clear Hrel.
  set (om := fun i => match i with 8%nat => 1 | _ => 1 / tau end) in Eo.
  rewrite Efeq in Eo.
  exists feq.
  assert (HMT : forall r, (r < 9)%nat -> matvec 9 (matR MRTDellarD2Q9_M) (no_f o) r =
     matvec 9 (matR MRTDellarD2Q9_M) f r - om r * (matvec 9 (matR MRTDellarD2Q9_M) f r - matvec 9 (matR MRTDellarD2Q9_M) feq r)).
  { intros r Hr'. rewrite <- Eo. apply (mrt_moment 9 DELLAR_D2Q9 _ _ om f feq r eq_refl eq_refl Hr'). }
  split; [|split; [|split; [|split; [|split]]]].
  - exists (BGKEquilibrium_calc L rho (fun a => momentum (D2Q9 s) f a / rho / s)). split; [reflexivity|].
    intros i Hi. rewrite <- Efeq.
    apply (eq_ext BGKEquilibrium L 1 rho (calculateVelocity L f rho) (fun a => momentum (D2Q9 s) f a / rho / s) 1); try reflexivity.
    + left. reflexivity.
    + intros a Ha. rewrite (momentum_unscale (D2Q9 s) s Hs). fold L.
      assert (Hja : rho * calculateVelocity L f rho a = momentum L f a) by exact (vel_momentum Stencil_D2Q9 s f rho a Hs Hr0 Ha).
      rewrite <- Hja. field. split; assumption.
  - rewrite <- !(dellar_J _ 1) by lia. rewrite HMT by lia. cbn [om Nat.add]. ring.
  - rewrite <- !(dellar_J _ 0) by lia. rewrite HMT by lia. reflexivity.
  - rewrite <- !dellar_N. rewrite HMT by lia. reflexivity.
  - intros a b Ha Hb'.
    (* second moments are combinations of rows 0, 3, 4, 5 *)
    assert (Hrow : forall g, moment2 (D2Q9 s) g a b = s * s *
       (match a, b with
        | O, O => (matvec 9 (matR MRTDellarD2Q9_M) g 3 + 3/2 * matvec 9 (matR MRTDellarD2Q9_M) g 0) * (2/9)
        | S _, S _ => (matvec 9 (matR MRTDellarD2Q9_M) g 5 + 3/2 * matvec 9 (matR MRTDellarD2Q9_M) g 0) * (2/9)
        | _, _ => matvec 9 (matR MRTDellarD2Q9_M) g 4 / 9
        end)).
    { intros g. destruct a as [|[|a]], b as [|[|b]]; try lia;
      unfold moment2, matvec, matR; cbn [D2Q9 st_Q st_e sumf nth MRTDellarD2Q9_M]; lit; field. }
    rewrite !Hrow. destruct a as [|[|a]], b as [|[|b]]; try lia; rewrite !HMT by lia; unfold om; unfold Rdiv; ring.
  - intros HJ i Hi. rewrite <- Eo. apply (mrt_bgk 9 DELLAR_D2Q9 _ _ om tau f feq eq_refl eq_refl); [|assumption].
    intros r Hr'. destruct (Nat.eq_dec r 8) as [-> | Hne].
    + right. change 8%nat with (7 + 1)%nat. rewrite !(dellar_J _ 1) by lia. assumption.
    + left. unfold om. do 8 (destruct r as [|r]; [reflexivity|]). destruct r; [congruence|reflexivity].
Qed.
