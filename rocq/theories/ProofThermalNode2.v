(** Thermal wall: fixed point, failures. *)
From Verif Require Import Prelude BigSum ModelStencils ModelConfigNames ModelEquilibria ModelCollision SpecStencils SpecCollision SpecSetup
  SpecNear SpecThermal ModelSemiLagrangian ModelWalls ModelThermalWalls.
From Verif Require Import ProofStencils ProofWick ProofEquilibria ProofEqMoments ProofQuartic ProofCollideNode ProofCompressible ProofPhysical
  ProofStencilHigh ProofNear ProofNearEq ProofNearCollide ProofThermalNode.
Local Open Scope R_scope.

Section Q45.
  Variables (s : R).
  Hypothesis Hs : s <> 0.
  Let t := Stencil_D3Q45.
  Let st := stencil_of t s.
  Let L := unscale st s.

  Lemma cs2_45_sq : Rabs (st_cs st) ^ 2 = st_cs2 st.
  Proof. pose proof (s2_c2 t s Hs) as X1. pose proof (cs2_st t s Hs) as X2. fold st in X1, X2. rewrite X2, X1. ring. Qed.
  Lemma cs2_45_pos : 0 < st_cs2 st.
  Proof.
    pose proof (cs2_ne t s Hs) as Hc. fold st in Hc. assert (0 <= st_cs2 st) by (rewrite <- cs2_45_sq; apply pow_le, Rabs_pos). lra.
  Qed.

  (** Moments of the equilibrium at rest. *)
  Lemma rest_moments f rho T : 0 < rho -> 0 <= T <= 10 ->
    (forall i, (i < st_Q st)%nat -> f i = QuarticEquilibrium_calc L rho (fun _ => 0 / s) T i) ->
    let eps := 2 / 10 ^ 8 in
    Rabs (mass st f - rho) <= eps * rho /\ (forall a, (a < 3)%nat -> Rabs (momentum st f a) <= eps * rho * Rabs (st_cs st)) /\
    (forall a, (a < 3)%nat -> Rabs (moment2 st f a a - rho * T * st_cs2 st) <= eps * rho * st_cs2 st).
  Proof.
    intros Hr HT Hf eps. pose proof (near_min t s) as Hh. pose proof (Nat.le_min_l 7 (high_order t)) as Lh.
    set (z := fun _ : nat => 0).
    pose proof (near_q_mass t s Hs _ _ Lh Hh z f rho T Hf ltac:(cbn; lia)) as A0.
    pose proof (fun a => near_q_momentum t s Hs _ _ Lh Hh z f rho T Hf a ltac:(cbn; lia)) as A1.
    pose proof (fun a b => near_q_moment2 t s Hs _ _ Lh Hh z f rho T Hf a b ltac:(cbn; lia)) as A2.
    fold st in A0, A1, A2. rewrite (Rabs_right rho) in A0, A1, A2 by lra. rewrite cs2_45_sq in A2.
    assert (HE : high_tol t * rho * expansion_size st z T <= eps * rho).
    { assert (X : expansion_size st z T <= 28 ^ 4).
      { unfold expansion_size. apply pow_incr. unfold mach. rewrite sumf_zero by (intros; unfold z; apply Rabs_R0).
        change (INR (st_D st)) with (INR 3). replace (INR 3) with 3 by (cbn; ring). unfold Rdiv. rewrite Rmult_0_l.
        pose proof (Rabs_pos (T - 1)). assert (Rabs (T - 1) <= 9) by (apply Rabs_le; lra). lra. }
      change (high_tol t) with (3 / 10 ^ 14). unfold eps.
      assert (0 < rho * (3 / 10 ^ 14)) by (apply Rmult_lt_0_compat; [lra|]; apply Rdiv_lt_0_compat; [lra|apply pow_lt; lra]).
      replace (3 / 10 ^ 14 * rho * expansion_size st z T) with (rho * (3 / 10 ^ 14) * expansion_size st z T) by ring.
      apply Rle_trans with (rho * (3 / 10 ^ 14) * 28 ^ 4); [apply Rmult_le_compat_l; lra|].
      rewrite Rmult_assoc, (Rmult_comm (2 / 10 ^ 8)). apply Rmult_le_compat_l; [lra|]. apply (Rmult_le_reg_r (10 ^ 14)); [apply pow_lt; lra|]. field_simplify; lra. }
    pose proof cs2_45_pos as Hc. pose proof (Rabs_pos (st_cs st)).
    split; [lra|]. split.
    - intros a Ha. specialize (A1 a Ha). unfold z in A1. rewrite Rmult_0_r, Rminus_0_r in A1.
      eapply Rle_trans; [exact A1|]. apply Rmult_le_compat_r; assumption.
    - intros a Ha. specialize (A2 a a Ha Ha). unfold z in A2. rewrite delta_refl in A2.
      replace (rho * (T * st_cs2 st * 1 + 0 * 0)) with (rho * T * st_cs2 st) in A2 by ring.
      eapply Rle_trans; [exact A2|]. apply Rmult_le_compat_r; [lra|exact HE].
  Qed.

  Lemma rest_flow f rho T : 0 < rho -> 0 <= T <= 10 ->
    (forall i, (i < st_Q st)%nat -> f i = QuarticEquilibrium_calc L rho (fun _ => 0 / s) T i) ->
    let eps := 2 / 10 ^ 8 in
    rho * (1 - eps) <= mass st f <= rho * (1 + eps) /\
    0 <= mass st f * dot (st_D st) (node_flow st f) (node_flow st f) <= 6 * eps * eps * rho * st_cs2 st /\
    Rabs (sumf 3 (fun a => moment2 st f a a) - 3 * rho * T * st_cs2 st) <= 3 * eps * rho * st_cs2 st.
  Proof.
    intros Hr HT Hf eps. destruct (rest_moments f rho T Hr HT Hf) as (A0 & A1 & A2). fold eps in A0, A1, A2.
    pose proof cs2_45_pos as Hc. assert (Heps : 0 < eps < 1 / 10 ^ 7) by (unfold eps; lra). clearbody eps.
    assert (A0' : - (eps * rho) <= mass st f - rho <= eps * rho) by (pose proof (Rle_abs (mass st f - rho)); pose proof (Rle_abs (- (mass st f - rho))) as Q; rewrite Rabs_Ropp in Q; lra). assert (Hm : rho * (1 - eps) <= mass st f <= rho * (1 + eps)) by lra.
    assert (Hm2 : rho / 2 <= mass st f) by nra.
    split; [exact Hm|]. split.
    - replace (mass st f * dot (st_D st) (node_flow st f) (node_flow st f)) with (sumf 3 (fun a => momentum st f a * momentum st f a) / mass st f).
      2:{ change (st_D st) with 3%nat. unfold dot, node_flow. rewrite <- sumf_scal. unfold Rdiv. rewrite <- sumf_scal_r. apply sumf_ext. intros a Ha. field. lra. }
      assert (B : sumf 3 (fun a => momentum st f a * momentum st f a) <= 3 * (eps * eps * rho * rho * st_cs2 st)).
      { replace 3 with (INR 3) by (cbn; ring). rewrite <- sumf_const. apply sumf_le. intros a Ha. rewrite <- cs2_45_sq.
        replace (eps * eps * rho * rho * Rabs (st_cs st) ^ 2) with ((eps * rho * Rabs (st_cs st)) * (eps * rho * Rabs (st_cs st))) by ring.
        replace (momentum st f a * momentum st f a) with (Rabs (momentum st f a) * Rabs (momentum st f a)).
        2:{ rewrite <- Rabs_mult. apply Rabs_right. nra. }
        apply Rmult_le_compat; try apply Rabs_pos; apply (A1 a Ha). }
      split.
      + apply Rmult_le_pos; [apply sumf_nonneg; intros; nra|]. left. apply Rinv_0_lt_compat. lra.
      + apply (Rmult_le_reg_r (mass st f)); [lra|]. unfold Rdiv. rewrite Rmult_assoc, Rinv_l, Rmult_1_r by lra.
        eapply Rle_trans; [exact B|].
        assert (HX : 0 <= eps * eps * rho * st_cs2 st) by (apply Rmult_le_pos; [apply Rmult_le_pos; [apply Rmult_le_pos|]|]; lra).
        pose proof (Rmult_le_compat_l _ _ _ HX Hm2) as HY. lra.
    - rewrite <- (Rmult_1_r (3 * rho * T * st_cs2 st)).
      replace (3 * rho * T * st_cs2 st * 1) with (sumf 3 (fun _ => rho * T * st_cs2 st)) by (rewrite sumf_const; cbn [INR]; ring).
      rewrite <- sumf_minus. eapply Rle_trans; [apply sumf_abs|].
      replace (3 * eps * rho * st_cs2 st) with (sumf 3 (fun _ => eps * rho * st_cs2 st)) by (rewrite sumf_const; cbn [INR]; ring).
      apply sumf_le. exact A2.
  Qed.

  (** A fluid at rest at the wall temperature stays as it is. *)
  Lemma thermal_fixed cfg f g rho Tw : 1 / 10 ^ 9 <= rho -> 0 <= Tw <= 10 ->
    equilibrium_populations QuarticEquilibrium cfg st s rho (fun _ => 0) Tw f ->
    (forall i, (i < st_Q st)%nat -> g i = f i * Tw * (2 / (14 / 10 - 1) - 3)) ->
    thermal_node st s Tw f g = Ok (f, g).
  Proof.
    intros Hr HT [h [Eh Hf]] Hg. cbn [eq_calc] in Eh. injection Eh as <-. fold L in Hf.
    assert (Hrp : 0 < rho) by (eapply Rlt_le_trans; [|exact Hr]; lra).
    destruct (rest_flow f rho Tw Hrp HT Hf) as (Hm & Hk & H2). set (eps := 2 / 10 ^ 8) in *.
    assert (Heps : 0 < eps < 1 / 10 ^ 7) by (unfold eps; lra). clearbody eps.
    assert (Hm2 : rho / 2 <= mass st f) by nra.
    assert (Hd : dense st f) by (unfold dense; lra).
    unfold thermal_node. destruct (thermal_values st s Tw f g) as [o| |] eqn:E.
    - destruct (thermal_inv t s Tw f g o Hs E) as (_ & _ & Ho). destruct o as [[f' g']|]; [|reflexivity].
      exfalso. destruct Ho as [Hl _]. apply (Rlt_not_le _ _ Hl). fold st. clear Hl.
      pose proof cs2_45_pos as Hc.
      pose proof (temperature_energy' t s (14 / 10) f Hs ltac:(lra) Hd g) as ET. fold st in ET.
      set (T := node_temperature (14 / 10) st f g) in *. set (K := mass st f * dot (st_D st) (node_flow st f) (node_flow st f)) in *.
      rewrite energy2_moments in ET. change (st_D st) with 3%nat in ET.
      replace (mass st g) with (mass st f * Tw * 2) in ET.
      2:{ unfold mass. rewrite (sumf_ext (st_Q st) g (fun i => f i * Tw * 2)) by (intros i Hi; rewrite (Hg i Hi); field).
          rewrite <- !sumf_scal_r. reflexivity. }
      set (S2 := sumf 3 (fun a => moment2 st f a a)) in *. set (m := mass st f) in *. set (c2 := st_cs2 st) in *.
      assert (E5 : 5 * m * c2 * (T - Tw) = (S2 - 3 * rho * Tw * c2) + 3 * Tw * c2 * (rho - m) - K).
      { replace (5 * m * c2 * (T - Tw)) with (2 / (14 / 10 - 1) * m * c2 * T - 5 * m * c2 * Tw) by field. rewrite ET. ring. }
      assert (X1 : Rabs (3 * Tw * c2 * (rho - m)) <= 30 * c2 * (eps * rho)).
      { rewrite Rabs_mult. apply Rmult_le_compat; try apply Rabs_pos.
        - rewrite Rabs_right by (apply Rle_ge; repeat (apply Rmult_le_pos; [|lra]); lra). apply Rmult_le_compat_r; lra.
        - apply Rabs_le. lra. }
      assert (X2 : Rabs K <= eps * rho * c2).
      { rewrite Rabs_right by lra. eapply Rle_trans; [apply Hk|]. assert (HX : 0 <= eps * rho * c2) by (repeat (apply Rmult_le_pos; [|lra]); lra).
        assert (HY : 6 * eps <= 1) by lra. pose proof (Rmult_le_compat_l _ _ _ HX HY) as HZ. lra. }
      assert (X : Rabs (5 * m * c2 * (T - Tw)) <= 34 * eps * (rho * c2)).
      { rewrite E5. eapply Rle_trans; [apply Rabs_triang|]. rewrite Rabs_Ropp. eapply Rle_trans; [apply Rplus_le_compat_r, Rabs_triang|]. lra. }
      assert (Hrc : 0 < rho * c2) by (apply Rmult_lt_0_compat; lra).
      assert (Hmc : rho * c2 / 2 <= m * c2) by (assert (rho / 2 * c2 <= m * c2) by (apply Rmult_le_compat_r; lra); lra).
      rewrite Rabs_mult, (Rabs_right (5 * m * c2)) in X by lra.
      apply (Rmult_le_reg_l (rho * c2)); [exact Hrc|]. pose proof (Rabs_pos (T - Tw)).
      assert (rho * c2 * Rabs (T - Tw) <= 2 * (m * c2) * Rabs (T - Tw)) by (apply Rmult_le_compat_r; lra).
      assert (34 * eps * (rho * c2) <= (1 / 10 ^ 5) * (rho * c2)) by (apply Rmult_le_compat_r; lra). nra.
    - exfalso. unfold thermal_values in E. cbv zeta in E. change (st_Q st) with 45%nat in E. cbn [Nat.eqb negb] in E.
      unfold calculateDensity in E. change (sumf 45 f) with (mass st f) in E. destruct (Rlt_dec (mass st f) (1 / 10 ^ 10)) as [X|_]; [unfold dense in Hd; lra|].
      cbn [obind] in E. destruct (Rlt_dec _ _); discriminate.
    - exfalso. unfold thermal_values in E. cbv zeta in E. change (st_Q st) with 45%nat in E. cbn [Nat.eqb negb] in E.
      unfold calculateDensity in E. change (sumf 45 f) with (mass st f) in E. destruct (Rlt_dec (mass st f) (1 / 10 ^ 10)) as [X|_]; [unfold dense in Hd; lra|].
      cbn [obind] in E. destruct (Rlt_dec _ _); discriminate.
  Qed.
  Lemma thermal_total f g Tw : dense st f -> exists o, thermal_values st s Tw f g = Ok o.
  Proof.
    intros Hd. unfold thermal_values. cbv zeta. change (st_Q st) with 45%nat. cbn [Nat.eqb negb].
    unfold calculateDensity. change (sumf 45 f) with (mass st f). destruct (Rlt_dec (mass st f) (1 / 10 ^ 10)) as [X|_]; [unfold dense in Hd; lra|].
    cbn [obind]. destruct (Rlt_dec _ _); eexists; reflexivity.
  Qed.
End Q45.

(** Without g: the populations are multiplied by 2 Tw. *)
Lemma thermal_f t s Tw f f' : s <> 0 -> thermal_node_f (stencil_of t s) s Tw f = Ok f' ->
  let st := stencil_of t s in
  let m := mass st f in
  let v := node_flow st f in
  let N := high_tol t * m * expansion_size st v Tw in
  Rabs (node_temperature (14 / 10) st f f - Tw) <= 1 / 10 ^ 5 /\ f' = f \/
  1 / 10 ^ 5 < Rabs (node_temperature (14 / 10) st f f - Tw) /\ Rabs (mass st f' - 2 * Tw * m) <= 2 * Rabs Tw * N.
Proof.
  intros Hs H st m v N. unfold thermal_node_f in H. destruct (thermal_values (stencil_of t s) s Tw f f) as [o| |] eqn:E; try discriminate.
  cbn [obind] in H. destruct (thermal_inv t s Tw f f o Hs E) as (Et & Hd & Ho). fold st m v in Ho, Hd.
  destruct o as [[f1 g1]|]; [right|left; split; [exact Ho|congruence]].
  cbn [snd] in H. assert (g1 = f') by congruence. subst g1. destruct Ho as (Hl & e & ew & He & Hew & Hf & Hg). split; [exact Hl|].
  assert (Hmp : 0 < m) by (apply (dense_pos t s f Hd)).
  pose proof (near_min t s) as Hh. pose proof (Nat.le_min_l 7 (high_order t)) as Lh.
  assert (H7 : Nat.min 7 (high_order t) = 7%nat) by (rewrite Et; reflexivity).
  pose proof (near_q_mass t s Hs _ _ Lh Hh v ew m Tw Hew ltac:(lia)) as B0. fold st in B0. rewrite (Rabs_right m) in B0 by lra. fold N in B0.
  replace (mass st f') with (2 * Tw * mass st ew).
  2:{ unfold mass. rewrite <- sumf_scal. apply sumf_ext. intros i Hi. rewrite Hg. ring. }
  replace (2 * Tw * mass st ew - 2 * Tw * m) with (2 * Tw * (mass st ew - m)) by ring.
  rewrite !Rabs_mult, (Rabs_right 2) by lra. apply Rmult_le_compat_l; [|exact B0]. apply Rmult_le_pos; [lra|apply Rabs_pos].
Qed.
