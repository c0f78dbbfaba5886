(** Agreement with the advanced collision, gradient initialisation, MRT fixed points. *)
From Coq Require Import QArith Qreals.
From Verif Require Import Prelude StencilData MRTEntropicData ModelStencils SpecStencils SpecCollision BigSum ProofStencils
  ProofWick ModelConfigNames ModelEquilibria ModelCollision SpecSetup ProofEquilibria ProofEqMoments ProofRelax ProofCollideNode ProofCollideAll ProofFixed
  ModelOldCollision SpecOldCollision ProofOldCollision ProofOldNode ProofOldNode2 ProofOldForce ProofOldLoop.
Local Open Scope R_scope.

(** ** Agreement with CollisionOperator *)
Lemma ue_unscale st s u i : s <> 0 -> st_cs2 st <> 0 -> ue_term (unscale st s) (fun a => u a / s) i = ue_term st u i.
Proof. intros Hs Hc. apply sumf_ext. intros j _. cbn [unscale st_cs2 st_e]. field. split; assumption. Qed.
Lemma uu_unscale st s u : s <> 0 -> st_cs2 st <> 0 -> uu_term (unscale st s) (fun a => u a / s) = uu_term st u.
Proof. intros Hs Hc. apply sumf_ext. intros j _. cbn [unscale st_cs2 st_e]. field. split; assumption. Qed.

Lemma old_eq_new c t s cfg rho v T : closed_form t = true -> s <> 0 -> (c = BGKStandard \/ exists gamma, c = BGKSteadyState gamma) ->
  same_equilibrium c cfg ->
  exists g, eq_calc (new_equilibrium c) (unscale (stencil_of t s) s)
      (gd_gamma_ss (make_genData cfg None (stencil_of t s) s 1 1)) rho (fun a => v a / s) T = Ok g /\
    forall i, (i < st_Q (stencil_of t s))%nat -> g i = old_eq c (stencil_of t s) rho v i.
Proof.
  intros Ht Hs Hc Hcfg. assert (Hcs : st_cs2 (stencil_of t s) <> 0) by (apply Rgt_not_eq, Rlt_gt, cs2_pos; assumption).
  destruct Hc as [-> | [gamma ->]]; cbn [new_equilibrium eq_calc].
  - eexists. split; [reflexivity|]. intros i Hi. rewrite bgk_calc_generic, old_eq_standard by (assumption || exact I).
    unfold BGKEquilibrium_generic. rewrite ue_unscale, uu_unscale by assumption. reflexivity.
  - destruct Hcfg as [Hq Hg]. eexists. split; [reflexivity|]. intros i Hi. rewrite old_eq_steady by assumption.
    unfold make_genData. rewrite Hq. cbn [gd_gamma_ss]. rewrite Hg. unfold SteadyStateEquilibrium_calc. rewrite ue_unscale, uu_unscale by assumption. reflexivity.
Qed.

Lemma make_old_inv c t s nu dt m : make_old c t s nu dt = Ok m ->
  0 < nu /\ 0 < dt /\ om_t m = t /\ om_s m = s /\ om_dt m = dt /\ om_forceType m = NO_FORCING /\
  om_prefactor m = - 1 / (om_tau m + 1/2) /\
  match c with
  | BGKSteadyState gamma => 0 < gamma <= 1 /\ om_tau m = nu / (dt * st_cs2 (stencil_of t s) * gamma)
  | _ => om_tau m = nu / (dt * st_cs2 (stencil_of t s))
  end.
Proof.
  unfold make_old, calculateRelaxationParameter. destruct (Rlt_dec 0 nu) as [Hnu|]; [|discriminate].
  destruct (Rlt_dec 0 dt) as [Hdt|]; [|discriminate]. cbn [obind].
  destruct c; try (intros H; injection H as <-; cbn; repeat split; assumption).
  destruct (Rlt_dec 0 gamma); [|discriminate]. destruct (Rle_dec gamma 1); [|discriminate].
  intros H; injection H as <-; cbn; repeat split; assumption.
Qed.

Lemma old_is_new c t s nu dt cfg m init rho_old f u o :
  closed_form t = true -> s <> 0 -> (c = BGKStandard \/ exists gamma, c = BGKSteadyState gamma) -> same_equilibrium c cfg ->
  make_old c t s nu dt = Ok m -> old_node c m init rho_old f u = Ok o ->
  exists o', collide_node BGKCollision (new_equilibrium c) (make_genData cfg None (stencil_of t s) s nu dt) init f u = Ok o' /\
    no_rho o' = no_rho o /\
    (forall a, (a < st_D (stencil_of t s))%nat -> no_u o' a = no_u o a) /\
    (forall i, (i < st_Q (stencil_of t s))%nat -> no_f o' i = no_f o i).
Proof.
  intros Ht Hs Hc Hcfg Hmk H. destruct (make_old_inv _ _ _ _ _ _ Hmk) as [Hnu [Hdt [E1 [E2 [E3 [E4 [E5 E6]]]]]]].
  assert (Hp : plain_bgk c m) by (destruct Hc as [-> | [gamma ->]]; cbn [plain_bgk]; [assumption|lra]).
  assert (Hs' : om_s m <> 0) by congruence.
  destruct (bgk_node _ _ _ _ _ _ _ Hp Hs' H) as [Hd [Hr [Hu Hf]]]. rewrite E1, E2 in *.
  set (st := stencil_of t s) in *. pose proof (cs2_pos t s Hs) as Hcs. fold st in Hcs.
  set (gd := make_genData cfg None st s nu dt).
  assert (Hv : forall a, (a < st_D st)%nat -> (if init then u a / s else calculateVelocity (unscale st s) f (mass st f) a) = no_u o a / s).
  { intros a Ha. destruct init; [rewrite Hu; reflexivity|]. rewrite (Hu a Ha).
    assert (Hr0 : mass st f <> 0) by (apply dens_neq0; assumption).
    apply (Rmult_eq_reg_l (mass st f)); [|assumption]. unfold st in Ha, Hr0 |- *. rewrite (vel_momentum t s f _ a Hs Hr0 Ha).
    rewrite (momentum_unscale (stencil_of t s) s Hs). field. split; assumption. }
  destruct (old_eq_new c t s cfg (mass st f) (no_u o) 1 Ht Hs Hc Hcfg) as [g [Hg Hgi]]. fold st in Hg, Hgi.
  change (gd_gamma_ss (make_genData cfg None st s 1 1)) with (gd_gamma_ss gd) in Hg.
  set (vel := if init then fun j => u j / s else calculateVelocity (unscale st s) f (mass st f)).
  assert (Hvel : forall a, (a < st_D (unscale st s))%nat -> vel a = no_u o a / s).
  { intros a Ha. rewrite <- Hv by exact Ha. unfold vel. destruct init; reflexivity. }
  assert (Hg' : exists g', eq_calc (new_equilibrium c) (unscale st s) (gd_gamma_ss gd) (mass st f) vel 1 = Ok g').
  { destruct c; cbn [new_equilibrium eq_calc]; eexists; reflexivity. }
  destruct Hg' as [g' Hg'].
  assert (Egg : forall i, g' i = g i) by (exact (eq_ext _ (unscale st s) _ _ _ _ _ _ _ (st_dim t s) Hvel Hg' Hg)).
  eexists. split.
  - unfold collide_node. change (st_Q (gd_L gd)) with (st_Q st). rewrite density_ok by exact Hd. cbn [obind].
    fold (mass st f). change (gd_force gd) with (@None (nat -> R)).
    instantiate (1 := {| no_f := relax_BGK (gd_tau gd) f g'; no_rho := mass st f;
      no_u := if init then u else fun j => calculateVelocity (unscale st s) f (mass st f) j * s |}).
    destruct init; cbn [obind fst snd]; unfold relax; change (gd_L gd) with (unscale st s); change (gd_scaling gd) with s;
      (match goal with |- context [eq_calc ?q ?x1 ?x2 ?x3 ?x4 1] =>
         change (eq_calc q x1 x2 x3 x4 1) with (eq_calc (new_equilibrium c) (unscale st s) (gd_gamma_ss gd) (mass st f) vel 1) end);
      rewrite Hg'; reflexivity.
  - cbn [no_f no_rho no_u]. split; [symmetry; assumption|]. split.
    + intros a Ha. specialize (Hv a Ha). destruct init; [rewrite Hu; reflexivity|]. rewrite Hv. field. assumption.
    + intros i Hi. rewrite (Hf i Hi). unfold relax_BGK, add_relaxed. rewrite Egg, (Hgi i Hi).
      assert (Etau : gd_tau gd = om_tau m + 1/2).
      { unfold gd, make_genData. cbn [gd_tau]. destruct Hc as [-> | [gamma ->]]; cbn [same_equilibrium] in Hcfg.
        - rewrite E6. destruct (cc_equilibrium cfg); congruence || reflexivity.
        - destruct Hcfg as [-> ->]. destruct E6 as [_ ->]. unfold calculateTauFromNuAndgamma. f_equal. f_equal. ring. }
      rewrite Etau, E5. unfold Rdiv. ring.
Qed.

Lemma new_is_old c t s nu dt cfg m init rho_old f u o' :
  closed_form t = true -> s <> 0 -> (c = BGKStandard \/ exists gamma, c = BGKSteadyState gamma) -> same_equilibrium c cfg ->
  make_old c t s nu dt = Ok m ->
  collide_node BGKCollision (new_equilibrium c) (make_genData cfg None (stencil_of t s) s nu dt) init f u = Ok o' ->
  (no_u o' 0%nat < 10^15) -> (no_u o' 1%nat < 10^15) ->
  exists o, old_node c m init rho_old f u = Ok o.
Proof.
  intros Ht Hs Hc Hcfg Hmk H H0 H1. destruct (make_old_inv _ _ _ _ _ _ Hmk) as [Hnu [Hdt [E1 [E2 [E3 [E4 [E5 E6]]]]]]].
  assert (Hp : plain_bgk c m) by (destruct Hc as [-> | [gamma ->]]; cbn [plain_bgk]; [assumption|lra]).
  apply bgk_runs; [assumption|]. unfold passes. rewrite E1, E2.
  set (st := stencil_of t s) in *. set (gd := make_genData cfg None st s nu dt) in *.
  unfold collide_node in H. destruct (calculateDensity (st_Q (gd_L gd)) f) as [r| |] eqn:Hd; try discriminate.
  apply density_inv in Hd. destruct Hd as [Hr Hd]. change (sumf (st_Q (gd_L gd)) f) with (mass st f) in Hr. subst r. split; [assumption|].
  assert (HD : (2 <= st_D st)%nat) by (unfold st; destruct (st_dim t s) as [E|E]; rewrite E; lia).
  assert (Hr0 : mass st f <> 0) by (apply dens_neq0; assumption).
  cbn [obind] in H. change (gd_force gd) with (@None (nat -> R)) in H.
  assert (Hu : if init then no_u o' = u else forall a, (a < st_D st)%nat -> no_u o' a = momentum st f a / mass st f).
  { destruct init; cbn [obind fst snd] in H;
    destruct (relax _ _ _ _ _ _ _) as [ff| |]; try discriminate; cbn [obind] in H; injection H as <-; cbn [no_u]; [reflexivity|].
    intros a Ha. change (gd_scaling gd) with s. change (gd_L gd) with (unscale st s).
    apply (Rmult_eq_reg_l (mass st f)); [|assumption]. unfold st in Ha, Hr0 |- *. rewrite <- Rmult_assoc, (vel_momentum t s f _ a Hs Hr0 Ha).
    rewrite (momentum_unscale (stencil_of t s) s Hs). field. assumption. }
  assert (Ha : eq_asserts (mass st f) (no_u o') = true).
  { unfold eq_asserts. assert (0 < mass st f).
    { assert (0 < 1 / 10^10) by (apply Rdiv_lt_0_compat; [lra|apply pow_lt; lra]). lra. }
    destruct (Rlt_dec 0 (mass st f)); [|contradiction].
    destruct (Rlt_dec (no_u o' 0%nat) (10^15)); [|contradiction]. destruct (Rlt_dec (no_u o' 1%nat) (10^15)); [reflexivity|contradiction]. }
  rewrite <- Ha. apply asserts_ext; destruct init; try (rewrite Hu; reflexivity); symmetry; apply Hu; lia.
Qed.

(** ** Gradient initialisation *)
Section Gradient.
  Variables (t : StencilType) (s tau rho : R).
  Hypothesis Ht : closed_form t = true.
  Hypothesis Hs : s <> 0.
  Let st := stencil_of t s.
  Let Hiso : isotropic st (moment_order t) := isotropic_all t s Ht.
  Let Hcs : st_cs2 st <> 0.
  Proof. apply Rgt_not_eq, Rlt_gt, cs2_pos. assumption. Qed.
  Let H5 : (5 <= moment_order t)%nat := order5 t Ht.

  (** the symmetric tensor carried *)
  Let P (g : nat -> nat -> R) (a b : nat) : R := - (tau + 1/2) * rho * st_cs2 st * (g a b + g b a).

  Lemma fneq_her2 g i : gradient_fneq st tau rho g i = st_w st i * 1 * her2 st (P g) i.
  Proof.
    unfold gradient_fneq, her2. cbv zeta. rewrite Rmult_comm.
    replace (st_w st i * 1 * sumf (st_D st) (fun b => sumf (st_D st) (fun c => P g b c / (2 * st_cs2 st * st_cs2 st) * (eprod st i [b; c] - st_cs2 st * delta b c))))
      with (st_w st i * sumf (st_D st) (fun b => sumf (st_D st) (fun c => P g b c / (2 * st_cs2 st * st_cs2 st) * (eprod st i [b; c] - st_cs2 st * delta b c)))) by ring.
    f_equal. set (k := - (tau + 1/2) * rho / st_cs2 st).
    set (q := fun a b => st_e st i a * st_e st i b - delta a b * st_cs2 st).
    assert (Hq : forall a b, q a b = q b a). { intros a b. unfold q, delta. rewrite (Nat.eqb_sym b a). destruct (Nat.eqb a b); ring. }
    transitivity (sumf (st_D st) (fun a => sumf (st_D st) (fun b => k * q a b * g a b))).
    { apply sumf_ext. intros a _. apply sumf_ext. intros b _. unfold q, k. field. assumption. }
    transitivity (/ 2 * (sumf (st_D st) (fun a => sumf (st_D st) (fun b => k * q a b * g a b)) + sumf (st_D st) (fun a => sumf (st_D st) (fun b => k * q a b * g b a)))).
    { assert (E : sumf (st_D st) (fun a => sumf (st_D st) (fun b => k * q a b * g b a)) = sumf (st_D st) (fun a => sumf (st_D st) (fun b => k * q a b * g a b))).
      { rewrite (sumf_swap (st_D st) (st_D st) (fun a b => k * q a b * g b a)). apply sumf_ext. intros a _. apply sumf_ext. intros b _. rewrite Hq. reflexivity. }
      rewrite E. field. }
    rewrite <- sumf_plus, <- sumf_scal. apply sumf_ext. intros a _. rewrite <- sumf_plus, <- sumf_scal. apply sumf_ext. intros b _.
    unfold P, q, k. cbn [eprod]. field. assumption.
  Qed.
  Lemma P_sym g a b : P g a b = P g b a. Proof. unfold P. ring. Qed.

  Lemma gradient_init_moments visits f :
    mass st (gradient_init st tau rho visits f) = mass st f /\
    (forall a, (a < st_D st)%nat -> momentum st (gradient_init st tau rho visits f) a = momentum st f a) /\
    (forall a b, (a < st_D st)%nat -> (b < st_D st)%nat ->
       moment2 st (gradient_init st tau rho visits f) a b
       = moment2 st f a b - (tau + 1/2) * rho * st_cs2 st * fold_right Rplus 0 (map (fun g => g a b + g b a) visits)).
  Proof.
    induction visits as [|g rest [IH0 [IH1 IH2]]].
    - unfold gradient_init. cbn [fold_right map]. split; [reflexivity|]. split; [reflexivity|]. intros a b _ _.
      change (moment2 st (fun i => f i) a b) with (moment2 st f a b). ring.
    - assert (E : forall i, gradient_init st tau rho (g :: rest) f i
                    = gradient_init st tau rho rest f i + 1 * (st_w st i * 1 * her2 st (P g) i)).
      { intros i. unfold gradient_init at 1. cbn [fold_right]. rewrite fneq_her2. unfold gradient_init. ring. }
      repeat split.
      + rewrite (mass_ext st _ _ (fun i _ => E i)), sum_mass, IH0, mass_Ex, (her2_0 st _ Hiso) by (assumption || lia). ring.
      + intros a Ha. rewrite (momentum_ext st _ _ a (fun i _ => E i)), sum_momentum, (IH1 a Ha), momentum_Ex, (her2_1 st _ Hiso) by (assumption || lia). ring.
      + intros a b Ha Hb. rewrite (moment2_ext st _ _ a b (fun i _ => E i)), sum_moment2, (IH2 a b Ha Hb), moment2_Ex, (her2_2 st _ Hiso) by (assumption || lia || apply P_sym).
        cbn [map fold_right]. unfold P. ring.
  Qed.
End Gradient.

(** ** Fixed points of the MRT classes (density one) *)
Lemma mrt_fixed_moments s u f : s <> 0 -> f = old_eq MRTStandard (D2Q9 s) 1 u ->
  sumf 9 f = 1 /\ mrt_moments f 3%nat = u 0%nat / s /\ mrt_moments f 5%nat = u 1%nat / s /\
  forall j, (j < 9)%nat -> mrt_moments f j = mrt_meq 1 (u 0%nat / s) (u 1%nat / s) j.
Proof.
  intros Hs ->. assert (H : forall j, (j < 9)%nat -> mrt_moments (old_eq MRTStandard (D2Q9 s) 1 u) j = mrt_meq 1 (u 0%nat / s) (u 1%nat / s) j)
    by (intros; apply eq_moments; assumption).
  repeat split; try assumption.
  - change (sumf 9 ?f) with (mrt_moments f 0). rewrite H by lia. reflexivity.
  - rewrite H by lia. unfold mrt_meq, vec. cbn [nth]. ring.
  - rewrite H by lia. unfold mrt_meq, vec. cbn [nth]. ring.
Qed.

Lemma back_ext n n' i : (forall j, (j < 9)%nat -> n j = n' j) -> mrt_back n i = mrt_back n' i.
Proof. intros H. unfold mrt_back. rewrite !H by lia. reflexivity. Qed.

Lemma mrt_fixed c m rho_old u u' f : c = MRTStandard \/ c = MRTEntropic -> om_t m = Stencil_D2Q9 -> om_s m <> 0 -> 1 / 10^10 <= rho_old ->
  getEquilibriumDistributions c (stencil_of (om_t m) (om_s m)) 1 u = Ok f ->
  exists o, old_node c m false rho_old f u' = Ok o /\ same_populations (stencil_of (om_t m) (om_s m)) f (no_f o) /\
    no_rho o = 1 /\ forall a, (a < st_D (stencil_of (om_t m) (om_s m)))%nat -> no_u o a = u a.
Proof.
  intros Hc Ht Hs Hold Hf. unfold getEquilibriumDistributions in Hf. destruct (eq_asserts 1 u); [|discriminate].
  rewrite Ht in *. cbn [stencil_of] in *.
  assert (Ef : f = old_eq MRTStandard (D2Q9 (om_s m)) 1 u) by (destruct Hc as [-> | ->]; injection Hf as <-; reflexivity).
  destruct (mrt_fixed_moments _ _ _ Hs Ef) as [H0 [H3 [H5 Hm]]].
  assert (Hmass : mass (D2Q9 (om_s m)) f = 1) by exact H0.
  assert (Hj : forall a, (a < 2)%nat -> momentum (D2Q9 (om_s m)) f a = u a).
  { intros a Ha. rewrite moments_momentum by assumption. destruct a as [|[|a]]; [rewrite H3|rewrite H5|lia]; field; assumption. }
  assert (H1 : mrt_moments f 0 = 1) by exact H0.
  destruct Hc as [-> | ->]; cbn [old_node].
  - unfold node_mrt_standard. rewrite Ht. cbv zeta. rewrite H0. destruct (Req_EM_T 1 0) as [E|_]; [lra|].
    eexists. split; [reflexivity|]. cbn [no_f no_rho no_u]. split; [|split; [reflexivity|]].
    + intros i Hi. transitivity (mrt_back (fun j => mrt_moments f j / MRTWeights j) i); [|apply mrt_roundtrip; exact Hi].
      apply back_ext. intros j Hjj. rewrite H3, H5, <- Hm by assumption. f_equal. ring.
    + intros a Ha. rewrite raw9_ok, Hj by (try assumption; lra). field.
  - unfold node_mrt_entropic. rewrite Ht. unfold node_mrt_entropic_D2Q9. rewrite checked_ok by assumption. cbv zeta. rewrite H1.
    destruct (Req_EM_T 1 0) as [E|_]; [lra|].
    eexists. split; [reflexivity|]. cbn [no_f no_rho no_u]. split; [|split; [reflexivity|]].
    + intros i Hi. transitivity (mrt_back (fun j => mrt_moments f j / MRTWeights j) i); [|apply mrt_roundtrip; exact Hi].
      apply back_ext. intros j Hjj. f_equal. rewrite H3, H5, (Hm 1%nat), (Hm 7%nat), (Hm 8%nat), (Hm j) by (assumption || lia).
      generalize (- 1 / (om_tau m + 1/2)). intros k.
      unfold mrt_meq, vec. do 9 (destruct j as [|j]; [cbn [nth]; field; assumption|]). lia.
    + intros a Ha. cbn [D2Q9 st_D] in Ha. rewrite H3, H5. unfold vec. destruct a as [|[|a]]; cbn [nth]; [field|field|lia]; assumption.
Qed.
