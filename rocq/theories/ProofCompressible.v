(** The two-population collision: mass, momentum and energy. *)
From Coq Require Import QArith Qreals.
From Verif Require Import Prelude StencilData MRTData ModelStencils SpecStencils SpecCollision BigSum ProofStencils
  ProofWick ModelConfigNames ModelEquilibria ModelCollision SpecSetup ProofEquilibria ProofQuartic ProofEqMoments ProofRelax
  ProofCollideNode ProofForces ProofFixed.
Open Scope R_scope.

Section Comp.
  Variables (L : stencil) (n : nat).
  Hypothesis Hiso : isotropic L n.
  Let D := st_D L.
  Let cs2 := st_cs2 L.
  Hypothesis Hcs : cs2 <> 0.
  Hypothesis Hn : (6 <= n)%nat.

  Ltac fa := repeat (constructor; [assumption|]); constructor.

  (** *** fStar carries no mass, momentum, second moment; gStar no mass *)
  Variable Q3 : nat -> nat -> nat -> R.
  Hypothesis Qsym12 : forall a b c, Q3 a b c = Q3 b a c.
  Hypothesis Qsym23 : forall a b c, Q3 a b c = Q3 a c b.

  Definition star_poly (i : nat) : R :=
    sumf D (fun a => sumf D (fun b => sumf D (fun c =>
      Q3 a b c / (6 * cs2 * cs2 * cs2) * (eprod L i [a; b; c] - 3 * cs2 * delta a b * eprod L i [c])))).

  Lemma fstar_split i : calculateFStar L Q3 i = st_w L i * 1 * star_poly i.
  Proof.
    unfold calculateFStar, star_poly. fold D cs2. rewrite <- sumf_scal. apply sumf_ext. intros a _.
    rewrite <- sumf_scal. apply sumf_ext. intros b _. rewrite <- sumf_scal. apply sumf_ext. intros c _.
    cbn [eprod]. unfold Rdiv. ring.
  Qed.

  Lemma Ex_star l :
    Ex L (fun i => star_poly i * eprod L i l) =
    sumf D (fun a => sumf D (fun b => sumf D (fun c => Q3 a b c / (6 * cs2 * cs2 * cs2) *
      (Ex L (fun i => eprod L i (a :: b :: c :: l)) - 3 * cs2 * delta a b * Ex L (fun i => eprod L i (c :: l)))))).
  Proof.
    transitivity (Ex L (fun i => sumf D (fun a => sumf D (fun b => sumf D (fun c => Q3 a b c / (6 * cs2 * cs2 * cs2) *
       (eprod L i (a :: b :: c :: l) - 3 * cs2 * delta a b * eprod L i (c :: l))))))).
    - apply Ex_ext. intros i. unfold star_poly.
      rewrite <- sumf_scal_r. apply sumf_ext. intros a _. rewrite <- sumf_scal_r. apply sumf_ext. intros b _.
      rewrite <- sumf_scal_r. apply sumf_ext. intros c _. cbn [eprod]. ring.
    - rewrite Ex_sum. apply sumf_ext. intros a _. rewrite Ex_sum. apply sumf_ext. intros b _.
      rewrite Ex_sum. apply sumf_ext. intros c _. rewrite Ex_scal, Ex_minus, Ex_scal. reflexivity.
  Qed.

  Lemma star_0 : Ex L star_poly = 0.
  Proof.
    transitivity (Ex L (fun i => star_poly i * eprod L i [])). { apply Ex_ext. intros. cbn [eprod]. ring. }
    rewrite Ex_star. apply sumf_zero. intros a Ha. apply sumf_zero. intros b Hb. apply sumf_zero. intros c Hc.
    rewrite (Ex_odd L n Hiso [a; b; c]), (Ex_odd L n Hiso [c]) by (try reflexivity; try fa; cbn [length]; lia). ring.
  Qed.
  Lemma star_2 x y : (x < D)%nat -> (y < D)%nat -> Ex L (fun i => star_poly i * st_e L i x * st_e L i y) = 0.
  Proof.
    intros Hx Hy. transitivity (Ex L (fun i => star_poly i * eprod L i [x; y])). { apply Ex_ext. intros. cbn [eprod]. ring. }
    rewrite Ex_star. apply sumf_zero. intros a Ha. apply sumf_zero. intros b Hb. apply sumf_zero. intros c Hc.
    rewrite (Ex_odd L n Hiso [a; b; c; x; y]), (Ex_odd L n Hiso [c; x; y]) by (try reflexivity; try fa; cbn [length]; lia). ring.
  Qed.
  Lemma star_1 d : (d < D)%nat -> Ex L (fun i => star_poly i * st_e L i d) = 0.
  Proof.
    intros Hd. transitivity (Ex L (fun i => star_poly i * eprod L i [d])). { apply Ex_ext. intros. cbn [eprod]. ring. }
    rewrite Ex_star.
    set (S := sumf D (fun a => Q3 a a d)).
    (* sum over c first, using symmetry *)
    transitivity (/ (6 * cs2) * (sumf D (fun a => sumf D (fun b => Q3 a b d * delta b a)) +
                        sumf D (fun a => sumf D (fun b => Q3 a b a * delta b d)) +
                        sumf D (fun a => sumf D (fun b => Q3 a b b * delta a d)) -
                        3 * sumf D (fun a => sumf D (fun b => Q3 a b d * delta b a)))).
    - rewrite <- !sumf_scal, <- !sumf_plus, <- sumf_minus, <- sumf_scal. apply sumf_ext. intros a Ha.
      rewrite <- !sumf_scal, <- !sumf_plus, <- sumf_minus, <- sumf_scal. apply sumf_ext. intros b Hb.
      transitivity (/ (6 * cs2) * sumf D (fun c => delta b a * (Q3 a b c * delta c d) + delta b d * (Q3 a b c * delta c a)
                                        + delta a d * (Q3 a b c * delta c b) - 3 * (delta b a * (Q3 a b c * delta c d)))).
      + rewrite <- sumf_scal. apply sumf_ext. intros c Hc.
        rewrite (Ex4 L n Hiso), (Ex2 L n Hiso) by (assumption || lia). fold cs2.
        rewrite (delta_sym a b), (delta_sym a c), (delta_sym b c). field. assumption.
      + f_equal. rewrite sumf_minus, !sumf_plus, !sumf_scal, !sumf_delta_r by assumption. ring.
    - rewrite (sumf_ext D (fun a => sumf D (fun b => Q3 a b d * delta b a)) (fun a => Q3 a a d))
        by (intros a Ha; apply (sumf_delta_r D a (fun b => Q3 a b d)); assumption).
      rewrite (sumf_ext D (fun a => sumf D (fun b => Q3 a b a * delta b d)) (fun a => Q3 a a d)).
      2:{ intros a Ha. rewrite (sumf_delta_r D d (fun b => Q3 a b a)) by assumption. apply Qsym23. }
      rewrite (sumf_ext D (fun a => sumf D (fun b => Q3 a b b * delta a d)) (fun a => sumf D (fun b => Q3 a b b) * delta a d))
        by (intros a Ha; apply sumf_scal_r).
      rewrite (sumf_delta_r D d (fun a => sumf D (fun b => Q3 a b b))) by assumption.
      rewrite (sumf_ext D (fun b => Q3 d b b) (fun b => Q3 b b d)) by (intros b Hb; rewrite Qsym12; apply Qsym23).
      ring.
  Qed.

  Lemma fstar_mass : mass L (calculateFStar L Q3) = 0.
  Proof. rewrite (mass_ext L _ _ (fun i _ => fstar_split i)), mass_Ex, star_0. ring. Qed.
  Lemma fstar_momentum d : (d < D)%nat -> momentum L (calculateFStar L Q3) d = 0.
  Proof. intros. rewrite (momentum_ext L _ _ d (fun i _ => fstar_split i)), momentum_Ex, star_1 by assumption. ring. Qed.
  Lemma fstar_moment2 x y : (x < D)%nat -> (y < D)%nat -> moment2 L (calculateFStar L Q3) x y = 0.
  Proof. intros. rewrite (moment2_ext L _ _ x y (fun i _ => fstar_split i)), moment2_Ex, star_2 by assumption. ring. Qed.

  Lemma gstar_mass T flux : mass L (calculateGStar L T flux) = 0.
  Proof.
    unfold mass, calculateGStar. fold D. rewrite sumf_swap. apply sumf_zero. intros a Ha.
    transitivity (flux a / T * Ex L (fun i => eprod L i [a])).
    - unfold Ex. rewrite <- sumf_scal. apply sumf_ext. intros i _. cbn [eprod]. unfold Rdiv. ring.
    - rewrite (Ex_odd L n Hiso [a]) by (try reflexivity; try fa; cbn [length]; lia). ring.
  Qed.
End Comp.

Lemma heatflux_sym12 L u f a b c : centeredHeatFluxTensor L u f a b c = centeredHeatFluxTensor L u f b a c.
Proof. apply sumf_ext. intros. ring. Qed.
Lemma heatflux_sym23 L u f a b c : centeredHeatFluxTensor L u f a b c = centeredHeatFluxTensor L u f a c b.
Proof. apply sumf_ext. intros. ring. Qed.

(** Energy in terms of moments *)
Lemma energy2_moments st f g : energy2 st f g =
  sumf (st_D st) (fun a => moment2 st f a a) + st_cs2 st * mass st g.
Proof.
  unfold energy2. rewrite sumf_plus, sumf_scal. f_equal. unfold dot, moment2. rewrite sumf_swap.
  apply sumf_ext. intros i _. rewrite <- sumf_scal_r. apply sumf_ext. intros a _. ring.
Qed.
Lemma energy2_unscale st s f g : s <> 0 -> energy2 st f g = s * s * energy2 (unscale st s) f g.
Proof.
  intros Hs. rewrite !energy2_moments. cbn [unscale st_D st_cs2]. rewrite Rmult_plus_distr_l. f_equal.
  - rewrite <- sumf_scal. apply sumf_ext. intros a _. apply (moment2_unscale st s Hs).
  - change (mass (unscale st s) g) with (mass st g). field. assumption.
Qed.

(** temperature is the one that accounts for all energy *)
Lemma temperature_energy gd f g v rho : st_cs2 (gd_L gd) <> 0 -> rho <> 0 -> cc_heat_gamma (gd_cfg gd) <> 1 ->
  rho = mass (gd_L gd) f -> (forall a, (a < st_D (gd_L gd))%nat -> rho * v a = momentum (gd_L gd) f a) ->
  2 * rho * (1 / (cc_heat_gamma (gd_cfg gd) - 1)) * st_cs2 (gd_L gd) * calculateTemperature gd f g v rho =
  energy2 (gd_L gd) f g - rho * dot (st_D (gd_L gd)) v v.
Proof.
  intros Hcs Hr0 Hga Hm Hj. unfold calculateTemperature. cbv zeta. set (L := gd_L gd) in *. set (ga := cc_heat_gamma (gd_cfg gd)) in *.
  assert (Hga' : ga - 1 <> 0) by lra.
  assert (E : sumf (st_Q L) (fun i => sumf (st_D L) (fun a => (st_e L i a - v a) * (st_e L i a - v a)) * f i / st_cs2 L + g i)
            = (energy2 L f g - rho * dot (st_D L) v v) / st_cs2 L).
  { rewrite sumf_plus. change (sumf (st_Q L) g) with (mass L g).
    transitivity (/ st_cs2 L * sumf (st_D L) (fun a => sumf (st_Q L) (fun i => f i * st_e L i a * st_e L i a - 2 * v a * (f i * st_e L i a) + v a * v a * f i)) + mass L g).
    - f_equal. rewrite sumf_swap, <- sumf_scal. apply sumf_ext. intros i _.
      unfold Rdiv. rewrite <- sumf_scal_r, <- sumf_scal_r, <- sumf_scal. apply sumf_ext. intros a _. ring.
    - rewrite energy2_moments.
      rewrite (sumf_ext (st_D L) _ (fun a => moment2 L f a a - rho * (v a * v a))).
      + rewrite sumf_minus, sumf_scal. unfold dot. field. assumption.
      + intros a Ha. rewrite sumf_plus, sumf_minus, !sumf_scal.
        change (sumf (st_Q L) f) with (mass L f). rewrite <- Hm.
        fold (moment2 L f a a). fold (momentum L f a). rewrite <- (Hj a Ha). ring. }
  rewrite E. field. repeat split; assumption.
Qed.

(** quartic equilibrium pair has the energy of the node *)
Lemma quartic_energy gd n rho v T : isotropic (gd_L gd) n -> (6 <= n)%nat -> st_cs2 (gd_L gd) <> 0 ->
  st_D (gd_L gd) = 2%nat \/ st_D (gd_L gd) = 3%nat ->
  let feq := QuarticEquilibrium_calc (gd_L gd) rho v T in
  energy2 (gd_L gd) feq (calculateGeqFromFeq gd T feq) =
  rho * dot (st_D (gd_L gd)) v v + 2 * rho * (1 / (cc_heat_gamma (gd_cfg gd) - 1)) * st_cs2 (gd_L gd) * T.
Proof.
  intros Hiso Hn Hcs HD feq. rewrite energy2_moments. set (L := gd_L gd) in *.
  assert (Hn5 : (5 <= n)%nat) by lia.
  rewrite (sumf_ext (st_D L) _ (fun a => rho * (v a * v a) + rho * T * st_cs2 L)).
  - rewrite sumf_plus, sumf_scal, sumf_const. fold (dot (st_D L) v v).
    unfold mass, calculateGeqFromFeq. fold L. rewrite !sumf_scal_r.
    change (sumf (st_Q L) feq) with (mass L feq). unfold feq. rewrite (q_mass L n Hiso) by assumption. ring.
  - intros a Ha. unfold feq. rewrite (q_moment2 L n Hiso) by assumption. rewrite delta_refl. ring.
Qed.

(** ** One compressible collision without forces *)
Lemma node_g_inv q gd f g u o : gd_force gd = None -> collide_node_g q gd false f g u = Ok o ->
  let rho := sumf (st_Q (gd_L gd)) f in
  let v := calculateVelocity (gd_L gd) f rho in
  let T := calculateTemperature gd f g v rho in
  1 / 10^10 <= rho /\ ng_rho o = rho /\ (forall a, ng_u o a = v a * gd_scaling gd) /\ ng_T o = T /\
  exists feq mask, relaxWithG q gd f g rho v T = Ok (ng_f o, ng_g o, feq, mask).
Proof.
  intros HF H rho v T. unfold collide_node_g in H.
  destruct (calculateDensity (st_Q (gd_L gd)) f) as [r| |] eqn:Hd; try discriminate. cbn [obind] in H.
  apply density_inv in Hd. destruct Hd as [Hr Hd]. fold rho in Hr. subst r. rewrite HF in H. cbn [obind fst snd] in H.
  fold v in H. fold T in H.
  destruct (relaxWithG q gd f g rho v T) as [[[[f1 g1] feq] mask]| |] eqn:Hrel; try discriminate.
  cbn [obind] in H. injection H as <-. cbn [ng_f ng_g ng_rho ng_u ng_T].
  repeat split; try assumption. exists feq, mask. reflexivity.
Qed.

(** moments after relaxWithG for any equilibrium with moments rho, rho u *)
Section RelaxG.
  Variables (gd : genData) (n : nat).
  Let L := gd_L gd.
  Hypothesis Hiso : isotropic L n.
  Hypothesis Hn : (6 <= n)%nat.
  Hypothesis Hcs : st_cs2 L <> 0.
  Variables (q : T_equilibrium) (f g : nat -> R) (rho : R) (v : nat -> R) (T : R) (f1 g1 feq : nat -> R) (mask : R).
  Hypothesis Hrel : relaxWithG q gd f g rho v T = Ok (f1, g1, feq, mask).

  Lemma relaxG_moments : exists om,
    eq_calc q L (gd_gamma_ss gd) rho v T = Ok feq /\
    mass L f1 = mass L f - om * (mass L f - mass L feq) /\
    (forall a, (a < st_D L)%nat -> momentum L f1 a = momentum L f a - om * (momentum L f a - momentum L feq a)) /\
    energy2 L f1 g1 = energy2 L f g - om * (energy2 L f g - energy2 L feq (calculateGeqFromFeq gd T feq)) /\
    om = 1 / ((gd_tau gd - 1/2) * (if cc_sutherland (gd_cfg gd) then Rpower (T / (85/100)) (7/10) else 1) / (T * rho) + 1/2).
  Proof.
    unfold relaxWithG in Hrel. fold L in Hrel.
    destruct (eq_calc q L (gd_gamma_ss gd) rho v T) as [e| |] eqn:He; try discriminate. cbn [obind] in Hrel. cbv zeta in Hrel.
    set (fst0 := if cc_prandtl_set (gd_cfg gd) then calculateFStar L (centeredHeatFluxTensor L v (fun p => f p - e p)) else fun _ => 0) in Hrel.
    set (gst0 := if cc_prandtl_set (gd_cfg gd) then calculateGStar L T (centeredMomentumFlux L v (fun p => g p - calculateGeqFromFeq gd T e p)) else fun _ => 0) in Hrel.
    set (vt := (gd_tau gd - 1/2) * (if cc_sutherland (gd_cfg gd) then Rpower (T / (85/100)) (7/10) else 1) / (T * rho) + 1/2) in *.
    set (pd := 1 / vt - 1 / ((vt - 1/2) / cc_prandtl (gd_cfg gd) + 1/2)) in Hrel.
    assert (F0 : mass L fst0 = 0).
    { unfold fst0. destruct (cc_prandtl_set (gd_cfg gd)); [|apply sumf_0]. apply (fstar_mass L n Hiso). lia. }
    assert (F1 : forall a, (a < st_D L)%nat -> momentum L fst0 a = 0).
    { intros a Ha. unfold fst0. destruct (cc_prandtl_set (gd_cfg gd)).
      - apply (fstar_momentum L n Hiso); try assumption; [apply heatflux_sym12|apply heatflux_sym23].
      - apply sumf_zero. intros. ring. }
    assert (F2 : forall a, (a < st_D L)%nat -> moment2 L fst0 a a = 0).
    { intros a Ha. unfold fst0. destruct (cc_prandtl_set (gd_cfg gd)).
      - apply (fstar_moment2 L n Hiso); assumption || lia.
      - apply sumf_zero. intros. ring. }
    assert (G0 : mass L gst0 = 0).
    { unfold gst0. destruct (cc_prandtl_set (gd_cfg gd)); [|apply sumf_0]. apply (gstar_mass L n Hiso). lia. }
    injection Hrel as <- <- <- _. exists (1 / vt). split; [reflexivity|]. split; [|split; [|split; [|reflexivity]]].
    - transitivity (mass L f - 1 / vt * (mass L f - mass L e) + pd * mass L fst0).
      + unfold mass. rewrite <- sumf_minus, <- !sumf_scal, <- sumf_minus, <- sumf_plus. apply sumf_ext. intros. ring.
      + rewrite F0. ring.
    - intros a Ha. transitivity (momentum L f a - 1 / vt * (momentum L f a - momentum L e a) + pd * momentum L fst0 a).
      + unfold momentum. rewrite <- sumf_minus, <- !sumf_scal, <- sumf_minus, <- sumf_plus. apply sumf_ext. intros. ring.
      + rewrite (F1 a Ha). ring.
    - transitivity (energy2 L f g - 1 / vt * (energy2 L f g - energy2 L e (calculateGeqFromFeq gd T e)) + pd * energy2 L fst0 gst0).
      + unfold energy2. rewrite <- sumf_minus, <- !sumf_scal, <- sumf_minus, <- sumf_plus. apply sumf_ext. intros. ring.
      + rewrite (energy2_moments L fst0), G0, (sumf_zero (st_D L)) by assumption. ring.
  Qed.
End RelaxG.

Definition order6 (t : StencilType) : Prop := closed_form t = true /\ (6 <= moment_order t)%nat.

Lemma compressible_ok cfg t s nu dt f g u o : order6 t -> valid_setup cfg s nu dt -> cc_heat_gamma cfg <> 1 ->
  collide_node_g QuarticEquilibrium (make_genData cfg None (stencil_of t s) s nu dt) false f g u = Ok o ->
  conserves (stencil_of t s) f (ng_f o) /\
  energy2 (stencil_of t s) (ng_f o) (ng_g o) = energy2 (stencil_of t s) f g /\
  ng_rho o = mass (stencil_of t s) f /\
  (forall a, (a < st_D (stencil_of t s))%nat -> ng_u o a = momentum (stencil_of t s) f a / mass (stencil_of t s) f).
Proof.
  intros [Ht H6] Hv Hga H. assert (Hs : s <> 0) by (destruct Hv; lra).
  set (gd := make_genData cfg None (stencil_of t s) s nu dt) in *.
  destruct (node_g_inv _ gd f g u o eq_refl H) as [Hd [Hrho [Hu [HT [feq [mask Hrel]]]]]].
  pose proof (iso_unscaled t s (moment_order t) Ht Hs (le_n _)) as Hiso.
  pose proof (cs2_unscaled_neq0 t s Hs) as Hcs.
  destruct (relaxG_moments gd (moment_order t) Hiso H6 Hcs _ _ _ _ _ _ _ _ _ _ Hrel) as [om [He [M0 [M1 [M2 _]]]]].
  change (gd_L gd) with (unscale (stencil_of t s) s) in *. set (L := unscale (stencil_of t s) s) in *.
  set (rho := sumf (st_Q L) f) in *. assert (Hr0 : rho <> 0) by (apply dens_neq0; assumption).
  set (v := calculateVelocity L f rho) in *. set (T := calculateTemperature gd f g v rho) in *.
  cbn [eq_calc] in He. injection He as <-.
  assert (Hj : forall a, (a < st_D L)%nat -> rho * v a = momentum L f a) by (intros a Ha; exact (vel_momentum t s f rho a Hs Hr0 Ha)).
  assert (HD : st_D L = 2%nat \/ st_D L = 3%nat) by apply st_dim.
  split; [split|split; [|split]].
  - rewrite (mass_unscale (stencil_of t s) s). fold L. rewrite M0.
    rewrite (q_mass L (moment_order t) Hiso) by (assumption || lia). change (mass L f) with rho.
    change (mass (stencil_of t s) f) with rho. ring.
  - intros a Ha. rewrite !(momentum_unscale (stencil_of t s) s Hs). fold L. rewrite (M1 a Ha).
    rewrite (q_momentum L (moment_order t) Hiso) by (assumption || lia). rewrite (Hj a Ha). ring.
  - rewrite !(energy2_unscale (stencil_of t s) s) by assumption. fold L. rewrite M2.
    pose proof (quartic_energy gd (moment_order t) rho v T Hiso H6 Hcs HD) as Hqe.
    pose proof (temperature_energy gd f g v rho Hcs Hr0 Hga eq_refl Hj) as Hte.
    change (gd_L gd) with L in Hqe, Hte. fold T in Hte. cbv zeta in Hqe. rewrite Hqe, Hte. ring.
  - assumption.
  - intros a Ha. rewrite Hu. change (gd_scaling gd) with s. rewrite (momentum_unscale (stencil_of t s) s Hs). fold L. rewrite <- (Hj a Ha).
    change (mass (stencil_of t s) f) with rho. field. assumption.
Qed.

Lemma compressible_runs cfg t s nu dt f g u : dense (stencil_of t s) f ->
  exists o, collide_node_g QuarticEquilibrium (make_genData cfg None (stencil_of t s) s nu dt) false f g u = Ok o.
Proof.
  intros Hd. unfold collide_node_g.
  rewrite (density_ok (st_Q (gd_L (make_genData cfg None (stencil_of t s) s nu dt))) f Hd). cbn [obind].
  unfold relaxWithG. cbn [make_genData gd_force obind eq_calc fst snd]. eexists. reflexivity.
Qed.

(** With the second-order equilibrium the energy changes whenever T <> 1. *)
Lemma bgk_compressible_energy cfg t s nu dt f g u o : order6 t -> valid_setup cfg s nu dt -> cc_heat_gamma cfg <> 1 ->
  cc_equilibrium cfg <> STEADYSTATE_EQUILIBRIUM ->
  collide_node_g BGKEquilibrium (make_genData cfg None (stencil_of t s) s nu dt) false f g u = Ok o ->
  conserves (stencil_of t s) f (ng_f o) /\
  energy2 (stencil_of t s) (ng_f o) (ng_g o) = energy2 (stencil_of t s) f g
    + 1 / (nu / (dt * st_cs2 (stencil_of t s))
           * (if cc_sutherland cfg then Rpower (ng_T o / (85/100)) (7/10) else 1) / (ng_T o * mass (stencil_of t s) f) + 1/2)
      * (INR (st_D (stencil_of t s)) * mass (stencil_of t s) f * st_cs2 (stencil_of t s) * (1 - ng_T o)).
Proof.
  intros [Ht H6] Hv Hga Hss H. assert (Hs : s <> 0) by (destruct Hv; lra).
  pose proof (tau_gd cfg None (stencil_of t s) s nu dt Hss) as Htg.
  set (gd := make_genData cfg None (stencil_of t s) s nu dt) in *.
  destruct (node_g_inv _ gd f g u o eq_refl H) as [Hd [Hrho [Hu [HT [feq [mask Hrel]]]]]].
  pose proof (iso_unscaled t s (moment_order t) Ht Hs (le_n _)) as Hiso.
  pose proof (cs2_unscaled_neq0 t s Hs) as Hcs.
  destruct (relaxG_moments gd (moment_order t) Hiso H6 Hcs _ _ _ _ _ _ _ _ _ _ Hrel) as [om [He [M0 [M1 [M2 Hom]]]]].
  change (gd_L gd) with (unscale (stencil_of t s) s) in *. set (L := unscale (stencil_of t s) s) in *.
  set (rho := sumf (st_Q L) f) in *. assert (Hr0 : rho <> 0) by (apply dens_neq0; assumption).
  set (v := calculateVelocity L f rho) in *. set (T := calculateTemperature gd f g v rho) in *.
  cbn [eq_calc] in He. injection He as He.
  assert (He' : forall i, (i < st_Q L)%nat -> feq i = BGKEquilibrium_generic L rho v i).
  { intros i Hi. rewrite <- He. apply bgk_calc_generic; assumption. }
  assert (Hj : forall a, (a < st_D L)%nat -> rho * v a = momentum L f a) by (intros a Ha; exact (vel_momentum t s f rho a Hs Hr0 Ha)).
  assert (H5 : (5 <= moment_order t)%nat) by lia.
  split; [split|].
  - rewrite (mass_unscale (stencil_of t s) s). fold L. rewrite M0, (mass_ext L _ _ He').
    rewrite (bgk_mass L (moment_order t) Hiso) by assumption. change (mass L f) with rho.
    change (mass (stencil_of t s) f) with rho. ring.
  - intros a Ha. rewrite !(momentum_unscale (stencil_of t s) s Hs). fold L. rewrite (M1 a Ha), (momentum_ext L _ _ a He').
    rewrite (bgk_momentum L (moment_order t) Hiso) by assumption. rewrite (Hj a Ha). ring.
  - rewrite !(energy2_unscale (stencil_of t s) s) by assumption. fold L. rewrite M2.
    pose proof (temperature_energy gd f g v rho Hcs Hr0 Hga eq_refl Hj) as Hte. change (gd_L gd) with L in Hte. fold T in Hte.
    assert (Hqe : energy2 L feq (calculateGeqFromFeq gd T feq) =
        rho * dot (st_D L) v v + INR (st_D L) * (rho * st_cs2 L) + st_cs2 L * (rho * T * (2 * (1 / (cc_heat_gamma (gd_cfg gd) - 1)) - INR (st_D L)))).
    { rewrite energy2_moments. f_equal.
      - rewrite (sumf_ext (st_D L) _ (fun a => rho * (v a * v a) + rho * st_cs2 L)).
        + rewrite sumf_plus, sumf_scal, sumf_const. reflexivity.
        + intros a Ha. rewrite (moment2_ext L _ _ a a He'), (bgk_moment2 L (moment_order t) Hiso) by assumption. rewrite delta_refl. ring.
      - f_equal. unfold mass, calculateGeqFromFeq. change (gd_L gd) with L. rewrite !sumf_scal_r.
        change (sumf (st_Q L) feq) with (mass L feq). rewrite (mass_ext L _ _ He'), (bgk_mass L (moment_order t) Hiso) by assumption. reflexivity. }
    assert (Etau : gd_tau gd - 1/2 = nu / (dt * st_cs2 (stencil_of t s))) by (rewrite Htg; ring).
    rewrite HT. change (mass (stencil_of t s) f) with rho. rewrite <- Etau. change (gd_cfg gd) with cfg in *. rewrite <- Hom.
    rewrite Hqe.
    replace (energy2 L f g) with (2 * rho * (1 / (cc_heat_gamma cfg - 1)) * st_cs2 L * T + rho * dot (st_D L) v v) by (rewrite Hte; ring).
    replace (st_cs2 (stencil_of t s)) with (s * s * st_cs2 L) by (unfold L; cbn [unscale st_cs2]; field; assumption).
    change (st_D (stencil_of t s)) with (st_D L). ring.
Qed.
