(** The thermal wall at one node. *)
From Verif Require Import Prelude BigSum ModelStencils ModelConfigNames ModelEquilibria ModelCollision SpecStencils SpecCollision SpecSetup
  SpecNear SpecThermal ModelSemiLagrangian ModelWalls ModelThermalWalls.
From Verif Require Import ProofStencils ProofWick ProofEquilibria ProofEqMoments ProofQuartic ProofCollideNode ProofCompressible ProofPhysical
  ProofStencilHigh ProofNear ProofNearEq ProofNearCollide.
Local Open Scope R_scope.

Definition gd_of (L : stencil) (gamma : R) : genData :=
  {| gd_L := L; gd_scaling := 1; gd_tau := 1; gd_dt := 1; gd_gamma_ss := 1; gd_force := None;
     gd_cfg := {| cc_forcing := NO_FORCING; cc_equilibrium := BGK_EQUILIBRIUM; cc_ss_gamma := 1; cc_mrt_basis := DELLAR_D2Q9;
       cc_mrt_relax := RELAX_FULL; cc_heat_gamma := gamma; cc_prandtl_set := false; cc_prandtl := 1; cc_sutherland := false |} |}.

Section Node.
  Variables (t : StencilType) (s gamma : R) (f : nat -> R).
  Let st := stencil_of t s.
  Let L := unscale st s.
  Let m := mass st f.
  Let v := node_flow st f.
  Hypothesis Hs : s <> 0.
  Hypothesis Hga : gamma <> 1.
  Hypothesis Hd : dense st f.
  Let Hm0 : m <> 0.
  Proof. apply dens_neq0. exact Hd. Qed.

  Lemma dense_pos : 0 < m.
  Proof. eapply Rlt_le_trans; [|exact Hd]. apply Rdiv_lt_0_compat; [lra|apply pow_lt; lra]. Qed.
  Lemma flow_vel a : (a < st_D L)%nat -> calculateVelocity L f m a = v a / s.
  Proof. intros Ha. exact (node_vel t s Hs f Hm0 a Ha). Qed.
  Lemma temperature_energy' g :
    2 / (gamma - 1) * m * st_cs2 st * node_temperature gamma st f g = energy2 st f g - m * dot (st_D st) v v.
  Proof.
    unfold node_temperature. fold m v. field. pose proof (cs2_ne t s Hs) as Hc. fold st in Hc. repeat split; try assumption. lra.
  Qed.
  Lemma temperature_is g : calculateTemperature_gamma L gamma f g (calculateVelocity L f m) m = node_temperature gamma st f g.
  Proof.
    pose proof (temperature_energy (gd_of L gamma) f g (calculateVelocity L f m) m (cs2_unscaled_neq0 t s Hs) Hm0 Hga eq_refl
      (fun a Ha => vel_momentum t s f m a Hs Hm0 Ha)) as E.
    change (gd_L (gd_of L gamma)) with L in E. change (cc_heat_gamma (gd_cfg (gd_of L gamma))) with gamma in E.
    change (calculateTemperature (gd_of L gamma) f g (calculateVelocity L f m) m) with (calculateTemperature_gamma L gamma f g (calculateVelocity L f m) m) in E.
    unfold node_temperature. fold m v. rewrite (energy2_unscale st s) by assumption. fold L.
    replace (dot (st_D st) v v) with (s * s * dot (st_D L) (calculateVelocity L f m) (calculateVelocity L f m)).
    2:{ unfold dot. rewrite <- sumf_scal. apply sumf_ext. intros a Ha. rewrite flow_vel by assumption. field. assumption. }
    replace (s * s * energy2 L f g - m * (s * s * dot (st_D L) (calculateVelocity L f m) (calculateVelocity L f m)))
      with (s * s * (energy2 L f g - m * dot (st_D L) (calculateVelocity L f m) (calculateVelocity L f m))) by ring.
    rewrite <- E. replace (st_cs2 st) with (s * s * st_cs2 L) by (unfold L; cbn [unscale st_cs2]; field; assumption).
    pose proof (cs2_unscaled_neq0 t s Hs) as Hc. fold st L in Hc. field. repeat split; try assumption. lra.
  Qed.
End Node.

Lemma q45 t s : st_Q (stencil_of t s) = 45%nat -> t = Stencil_D3Q45.
Proof. destruct t; intros H; try discriminate H; reflexivity. Qed.

(** What the thermal wall does at all. *)
Lemma thermal_inv t s Tw f g o : s <> 0 -> thermal_values (stencil_of t s) s Tw f g = Ok o ->
  let st := stencil_of t s in
  let m := mass st f in
  let v := node_flow st f in
  let T := node_temperature (14 / 10) st f g in
  t = Stencil_D3Q45 /\ dense st f /\
  match o with
  | None => Rabs (T - Tw) <= 1 / 10 ^ 5
  | Some (f', g') => 1 / 10 ^ 5 < Rabs (T - Tw) /\ exists e ew,
      (forall i, (i < st_Q st)%nat -> e i = QuarticEquilibrium_calc (unscale st s) m (fun a => v a / s) T i) /\
      (forall i, (i < st_Q st)%nat -> ew i = QuarticEquilibrium_calc (unscale st s) m (fun a => v a / s) Tw i) /\
      (forall i, f' i = f i - e i + ew i) /\ (forall i, g' i = ew i * Tw * 2)
  end.
Proof.
  intros Hs H st m v T. unfold thermal_values in H. cbv zeta in H. fold st in H.
  destruct (Nat.eqb_spec (st_Q st) 45) as [EQ|]; [|discriminate]. cbn [negb] in H.
  assert (Et := q45 t s EQ). split; [exact Et|]. rewrite <- EQ in H.
  unfold calculateDensity in H. destruct (Rlt_dec (sumf (st_Q st) f) (1 / 10 ^ 10)) as [|Hd]; [discriminate|]. cbn [obind] in H.
  change (sumf (st_Q st) f) with m in *. assert (Hd' : dense st f) by (unfold dense; fold m; lra). split; [exact Hd'|].
  assert (ET := temperature_is t s (14 / 10) f Hs ltac:(lra) Hd' g). fold st m T in ET. cbv zeta in ET. rewrite ET in H.
  destruct (Rlt_dec (1 / 10 ^ 5) (Rabs (T - Tw))) as [Hl|Hl].
  - assert (E : o = Some (fun i => f i - QuarticEquilibrium_calc (unscale st s) m (calculateVelocity (unscale st s) f m) T i
        + QuarticEquilibrium_calc (unscale st s) m (calculateVelocity (unscale st s) f m) Tw i,
        calculateGeqFromFeq_gamma (st_D st) Tw (14 / 10) (QuarticEquilibrium_calc (unscale st s) m (calculateVelocity (unscale st s) f m) Tw))) by congruence.
    subst o. clear H. split; [exact Hl|].
    exists (QuarticEquilibrium_calc (unscale st s) m (calculateVelocity (unscale st s) f m) T), (QuarticEquilibrium_calc (unscale st s) m (calculateVelocity (unscale st s) f m) Tw).
    split; [intros i Hi; apply quartic_ext; [apply st_dim|exact (flow_vel t s f Hs Hd')]|].
    split; [intros i Hi; apply quartic_ext; [apply st_dim|exact (flow_vel t s f Hs Hd')]|].
    split; [reflexivity|]. intros i. unfold calculateGeqFromFeq_gamma. replace (INR (st_D st)) with 3; [field|].
    unfold st. rewrite Et. cbn. ring.
  - assert (E : o = None) by congruence. subst o. lra.
Qed.

Lemma thermal_wall t s Tw f g f' g' : s <> 0 -> thermal_node (stencil_of t s) s Tw f g = Ok (f', g') ->
  let st := stencil_of t s in
  let m := mass st f in
  let v := node_flow st f in
  let T := node_temperature (14 / 10) st f g in
  let N := high_tol t * m * (expansion_size st v T + expansion_size st v Tw) in
  t = Stencil_D3Q45 /\ dense st f /\
  (Rabs (T - Tw) <= 1 / 10 ^ 5 /\ f' = f /\ g' = g \/
   1 / 10 ^ 5 < Rabs (T - Tw) /\
   (forall cfg, exists ew, equilibrium_populations QuarticEquilibrium cfg st s m v Tw ew /\ forall i, (i < st_Q st)%nat -> g' i = 2 * Tw * ew i) /\
   Rabs (mass st f' - m) <= N /\
   (forall a, (a < st_D st)%nat -> Rabs (momentum st f' a - momentum st f a) <= N * Rabs (st_cs st)) /\
   Rabs (energy2 st f' g' - (m * dot (st_D st) v v + 5 * m * st_cs2 st * Tw + st_cs2 st * (2 * m * T - mass st g))) <= N * st_cs2 st * (3 + 2 * Rabs Tw)).
Proof.
  intros Hs H st m v T N. unfold thermal_node in H. destruct (thermal_values (stencil_of t s) s Tw f g) as [o| |] eqn:E; try discriminate.
  cbn [obind] in H. destruct (thermal_inv t s Tw f g o Hs E) as (Et & Hd & Ho). fold st m v T in Et, Hd, Ho.
  split; [exact Et|]. split; [exact Hd|].
  destruct o as [[f1 g1]|]; [right|left; split; [exact Ho|split; congruence]].
  assert (f1 = f') by congruence. assert (g1 = g') by congruence. subst f1 g1. clear H.
  destruct Ho as (Hl & e & ew & He & Hew & Hf & Hg). split; [exact Hl|].
  assert (Hmp : 0 < m) by (apply (dense_pos t s f Hd)).
  pose proof (near_min t s) as Hh. pose proof (Nat.le_min_l 7 (high_order t)) as Lh.
  assert (H7 : Nat.min 7 (high_order t) = 7%nat) by (rewrite Et; reflexivity).
  pose proof (near_q_mass t s Hs _ _ Lh Hh v e m T He ltac:(lia)) as A0.
  pose proof (fun a => near_q_momentum t s Hs _ _ Lh Hh v e m T He a ltac:(lia)) as A1.
  pose proof (fun a b => near_q_moment2 t s Hs _ _ Lh Hh v e m T He a b ltac:(lia)) as A2.
  pose proof (near_q_mass t s Hs _ _ Lh Hh v ew m Tw Hew ltac:(lia)) as B0.
  pose proof (fun a => near_q_momentum t s Hs _ _ Lh Hh v ew m Tw Hew a ltac:(lia)) as B1.
  pose proof (fun a b => near_q_moment2 t s Hs _ _ Lh Hh v ew m Tw Hew a b ltac:(lia)) as B2.
  fold st in A0, A1, A2, B0, B1, B2. rewrite (Rabs_right m) in A0, A1, A2, B0, B1, B2 by lra.
  set (N1 := high_tol t * m * expansion_size st v T) in *. set (N2 := high_tol t * m * expansion_size st v Tw) in *.
  assert (EN : N = N1 + N2) by (unfold N, N1, N2; ring).
  assert (Hsq : Rabs (st_cs st) ^ 2 = st_cs2 st).
  { pose proof (s2_c2 t s Hs) as X1. pose proof (cs2_st t s Hs) as X2. fold st in X1, X2. rewrite X2, X1. ring. }
  assert (Hcs0 : 0 <= st_cs2 st) by (rewrite <- Hsq; apply pow_le, Rabs_pos).
  assert (HD : st_D st = 3%nat) by (unfold st; rewrite Et; reflexivity).
  assert (HN1 : 0 <= N1) by (eapply Rle_trans; [apply Rabs_pos|exact A0]).
  assert (HN2 : 0 <= N2) by (eapply Rle_trans; [apply Rabs_pos|exact B0]).
  split; [|split; [|split]].
  - intros cfg. exists ew. split; [eexists; split; [reflexivity|exact Hew]|]. intros i Hi. rewrite Hg. ring.
  - replace (mass st f' - m) with ((mass st ew - m) - (mass st e - m)).
    2:{ unfold m, mass. rewrite (sumf_ext _ f' (fun i => f i - e i + ew i)) by (intros; apply Hf). rewrite sumf_plus, sumf_minus. ring. }
    eapply Rle_trans; [apply Rabs_triang|]. rewrite Rabs_Ropp, EN. lra.
  - intros a Ha. specialize (A1 a Ha). specialize (B1 a Ha).
    replace (momentum st f' a - momentum st f a) with ((momentum st ew a - m * v a) - (momentum st e a - m * v a)).
    2:{ unfold momentum. rewrite (sumf_ext _ (fun i => f' i * st_e st i a) (fun i => f i * st_e st i a - e i * st_e st i a + ew i * st_e st i a)) by (intros; rewrite Hf; ring).
        rewrite sumf_plus, sumf_minus. ring. }
    eapply Rle_trans; [apply Rabs_triang|]. rewrite Rabs_Ropp, EN. lra.
  - pose proof (temperature_energy' t s (14 / 10) f Hs ltac:(lra) Hd g) as ET. fold st m v T in ET.
    assert (E2 : energy2 st f' g' = energy2 st f g - st_cs2 st * mass st g
      - sumf (st_D st) (fun a => moment2 st e a a) + sumf (st_D st) (fun a => moment2 st ew a a) + st_cs2 st * (2 * Tw * mass st ew)).
    { rewrite !energy2_moments. replace (mass st g') with (2 * Tw * mass st ew).
      2:{ unfold mass. rewrite <- sumf_scal. apply sumf_ext. intros i Hi. rewrite Hg. ring. }
      rewrite (sumf_ext (st_D st) (fun a => moment2 st f' a a) (fun a => moment2 st f a a - moment2 st e a a + moment2 st ew a a)).
      - rewrite sumf_plus, sumf_minus. ring.
      - intros a Ha. unfold moment2. rewrite <- sumf_minus, <- sumf_plus. apply sumf_ext. intros i Hi. rewrite Hf. ring. }
    assert (D1 : forall h T0 K, (forall a b, (a < st_D st)%nat -> (b < st_D st)%nat -> Rabs (moment2 st h a b - m * (T0 * st_cs2 st * delta a b + v a * v b)) <= K * Rabs (st_cs st) ^ 2) ->
      Rabs (sumf (st_D st) (fun a => moment2 st h a a) - (3 * m * T0 * st_cs2 st + m * dot (st_D st) v v)) <= 3 * (K * st_cs2 st)).
    { intros h T0 K HK. replace (3 * m * T0 * st_cs2 st + m * dot (st_D st) v v) with (sumf (st_D st) (fun a => m * (T0 * st_cs2 st * delta a a + v a * v a))).
      2:{ rewrite (sumf_ext (st_D st) (fun a => m * (T0 * st_cs2 st * delta a a + v a * v a)) (fun a => m * T0 * st_cs2 st + m * (v a * v a)))
            by (intros; rewrite delta_refl; ring).
          rewrite sumf_plus, sumf_const, sumf_scal. fold (dot (st_D st) v v). rewrite HD. cbn [INR]. ring. }
      rewrite <- sumf_minus. eapply Rle_trans; [apply sumf_abs|]. replace (3 * (K * st_cs2 st)) with (INR (st_D st) * (K * st_cs2 st)) by (rewrite HD; cbn [INR]; ring).
      rewrite <- sumf_const. apply sumf_le. intros a Ha. rewrite <- Hsq at 2. apply (HK a a Ha Ha). }
    pose proof (D1 e T N1 A2) as X1. pose proof (D1 ew Tw N2 B2) as X2. clear D1.
    rewrite E2. replace (energy2 st f g) with (5 * m * st_cs2 st * T + m * dot (st_D st) v v).
    2:{ replace (5 * m * st_cs2 st * T) with (2 / (14 / 10 - 1) * m * st_cs2 st * T) by field. rewrite ET. ring. }
    set (S1 := sumf (st_D st) (fun a => moment2 st e a a)) in *. set (S2 := sumf (st_D st) (fun a => moment2 st ew a a)) in *.
    set (K := m * dot (st_D st) v v) in *.
    replace (5 * m * st_cs2 st * T + K - st_cs2 st * mass st g - S1 + S2 + st_cs2 st * (2 * Tw * mass st ew) -
      (K + 5 * m * st_cs2 st * Tw + st_cs2 st * (2 * m * T - mass st g)))
      with ((S2 - (3 * m * Tw * st_cs2 st + K)) - (S1 - (3 * m * T * st_cs2 st + K)) + 2 * st_cs2 st * (Tw * (mass st ew - m))) by ring.
    assert (X3 : Rabs (2 * st_cs2 st * (Tw * (mass st ew - m))) <= 2 * st_cs2 st * (Rabs Tw * N2)).
    { rewrite !Rabs_mult, (Rabs_right 2), (Rabs_right (st_cs2 st)) by lra. apply Rmult_le_compat_l; [lra|]. apply Rmult_le_compat_l; [apply Rabs_pos|exact B0]. }
    eapply Rle_trans; [apply Rabs_triang|]. eapply Rle_trans; [apply Rplus_le_compat_r, Rabs_triang|]. rewrite Rabs_Ropp.
    assert (0 <= st_cs2 st * (Rabs Tw * N1)) by (apply Rmult_le_pos; [assumption|apply Rmult_le_pos; [apply Rabs_pos|assumption]]).
    rewrite EN. nra.
Qed.
