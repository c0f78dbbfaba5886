(** Thermal wall: witnesses. *)
From Coq Require Import Qreals.
From Verif Require Import Prelude BigSum ModelStencils ModelConfigNames ModelEquilibria ModelCollision SpecStencils SpecCollision SpecSetup
  SpecNear SpecThermal ModelSemiLagrangian ModelWalls ModelThermalWalls.
From Verif Require Import ProofStencils ProofWick ProofEquilibria ProofEqMoments ProofQuartic ProofCollideNode ProofCompressible ProofPhysical
  ProofStencilHigh ProofNear ProofNearEq ProofNearCollide ProofThermalNode ProofThermalNode2.
Local Open Scope R_scope.

Notation S45 := (stencil_of Stencil_D3Q45 1).
Definition hot (i : nat) : R := 10 * rest i.

Lemma e45_0 a : (a < 3)%nat -> st_e S45 0%nat a = 0.
Proof. intros Ha. destruct a as [|[|[|a]]]; [| | |lia]; unfold stencil_of, D3Q45; cbn [st_e]; unfold tblQ, tbl; cbn; unfold Q2R; cbn; lra. Qed.
Lemma sum_rest n (g : nat -> R) : (0 < n)%nat -> sumf n (fun i => rest i * g i) = g 0%nat.
Proof.
  induction n as [|n IH]; intros Hn; [lia|]. cbn [sumf]. destruct n as [|n]; [cbn; ring|]. rewrite IH by lia. cbn [rest]. ring.
Qed.
Lemma mass_rest : mass S45 rest = 1.
Proof. unfold mass. rewrite (sumf_ext _ rest (fun i => rest i * 1)) by (intros; ring). apply sum_rest. cbn. lia. Qed.
Lemma flow_rest a : (a < 3)%nat -> node_flow S45 rest a = 0.
Proof.
  intros Ha. unfold node_flow. replace (momentum S45 rest a) with 0; [unfold Rdiv; ring|].
  unfold momentum. rewrite sum_rest by (cbn; lia). symmetry. apply e45_0. exact Ha.
Qed.
Lemma moment2_rest a : (a < 3)%nat -> moment2 S45 rest a a = 0.
Proof.
  intros Ha. unfold moment2. rewrite (sumf_ext _ _ (fun i => rest i * (st_e S45 i a * st_e S45 i a))) by (intros; ring).
  rewrite sum_rest by (cbn; lia). rewrite e45_0 by exact Ha. ring.
Qed.
Lemma kinetic_rest : dot 3 (node_flow S45 rest) (node_flow S45 rest) = 0.
Proof. unfold dot. apply sumf_zero. intros a Ha. rewrite flow_rest by exact Ha. ring. Qed.
Lemma mach_rest : mach S45 (node_flow S45 rest) = 0.
Proof. unfold mach. rewrite sumf_zero; [unfold Rdiv; ring|]. intros a Ha. rewrite (flow_rest a Ha). apply Rabs_R0. Qed.
Lemma size_rest T x : Rabs (T - 1) <= x -> expansion_size S45 (node_flow S45 rest) T <= (1 + 3 * x) ^ 4.
Proof.
  intros HT. unfold expansion_size. rewrite mach_rest. change (INR (st_D S45)) with (INR 3). replace (INR 3) with 3 by (cbn; ring).
  pose proof (Rabs_pos (T - 1)). apply pow_incr. lra.
Qed.
Lemma hot_temperature : node_temperature (14 / 10) S45 rest hot = 2.
Proof.
  unfold node_temperature. rewrite energy2_moments, mass_rest. change (st_D S45) with 3%nat. rewrite kinetic_rest.
  rewrite sumf_zero by exact moment2_rest. replace (mass S45 hot) with 10.
  2:{ unfold mass, hot. rewrite sumf_scal. change (sumf (st_Q S45) rest) with (mass S45 rest). rewrite mass_rest. ring. }
  pose proof (cs2_ne Stencil_D3Q45 1 ltac:(lra)). field. assumption.
Qed.

Lemma cs45_pos : 0 < Rabs (st_cs S45).
Proof.
  pose proof (cs2_45_pos 1 ltac:(lra)) as Hc. rewrite <- (cs2_45_sq 1 ltac:(lra)) in Hc. pose proof (Rabs_pos (st_cs S45)).
  destruct (Req_dec (Rabs (st_cs S45)) 0) as [E|]; [|lra]. rewrite E in Hc. lra.
Qed.

(** The wall temperature is not reached. *)
Lemma temperature_refuted : exists f g f' g', thermal_node S45 1 1 f g = Ok (f', g') /\
  node_temperature (14 / 10) S45 f g = 2 /\ 1 / 2 <= mass S45 f' /\ node_temperature (14 / 10) S45 f' g' < 0.
Proof.
  destruct (thermal_total 1 rest hot 1 (rest_dense _ 1)) as [o Ho].
  assert (HN : exists f' g', thermal_node S45 1 1 rest hot = Ok (f', g')).
  { unfold thermal_node. rewrite Ho. cbn [obind]. destruct o as [[f' g']|]; eauto. }
  destruct HN as (f' & g' & HN). exists rest, hot, f', g'. split; [exact HN|]. split; [exact hot_temperature|].
  destruct (thermal_wall Stencil_D3Q45 1 1 rest hot f' g' ltac:(lra) HN) as (_ & _ & [[H _]|(_ & _ & Hm & _ & He)]).
  { exfalso. rewrite hot_temperature in H. rewrite Rabs_right in H by lra. lra. }
  rewrite hot_temperature, mass_rest in *. change (st_D S45) with 3%nat in He. rewrite kinetic_rest in He.
  pose proof (cs2_45_pos 1 ltac:(lra)) as Hc.
  set (E2 := expansion_size S45 (node_flow S45 rest) 2) in *. set (E1 := expansion_size S45 (node_flow S45 rest) 1) in *.
  assert (B : high_tol Stencil_D3Q45 * 1 * (E2 + E1) <= 1 / 10 ^ 10).
  { assert (E2 <= (1 + 3 * 1) ^ 4) by (apply size_rest; rewrite Rabs_right; lra).
    assert (E1 <= (1 + 3 * 0) ^ 4) by (apply size_rest; rewrite Rabs_right; lra).
    change (high_tol Stencil_D3Q45) with (3 / 10 ^ 14). lra. }
  set (N := high_tol Stencil_D3Q45 * 1 * (E2 + E1)) in *. clearbody N.
  assert (Hm' : 1 / 2 <= mass S45 f').
  { pose proof (Rle_abs (- (mass S45 f' - 1))) as Q. rewrite Rabs_Ropp in Q. lra. }
  split; [exact Hm'|].
  assert (HE : energy2 S45 f' g' < 0).
  { replace (mass S45 hot) with 10 in He.
    2:{ unfold mass, hot. rewrite sumf_scal. change (sumf (st_Q S45) rest) with (mass S45 rest). rewrite mass_rest. ring. }
    rewrite (Rabs_right 1) in He by lra.
    match type of He with Rabs (?x - ?y) <= _ => pose proof (Rle_abs (x - y)) as Q end.
    set (c2 := st_cs2 S45) in *. clearbody c2.
    assert (N * c2 * (3 + 2 * 1) <= 1 / 10 ^ 9 * c2) by nra. nra. }
  unfold node_temperature. set (c2 := st_cs2 S45) in *. set (m' := mass S45 f') in *.
  assert (HK : 0 <= m' * dot (st_D S45) (node_flow S45 f') (node_flow S45 f')).
  { apply Rmult_le_pos; [lra|]. unfold dot. apply sumf_nonneg. intros. nra. }
  assert (Hden : 0 < / (2 * m' * c2)) by (apply Rinv_0_lt_compat; apply Rmult_lt_0_compat; lra).
  unfold Rdiv at 1. set (X := energy2 S45 f' g' - m' * dot (st_D S45) (node_flow S45 f') (node_flow S45 f')) in *.
  assert (X < 0) by (unfold X; lra). assert (X * (14 / 10 - 1) < 0) by lra. nra.
Qed.

(** With a heat capacity ratio other than 1.4. *)
Lemma gamma_refuted cfg : exists f g f' g', equilibrium_populations QuarticEquilibrium cfg S45 1 1 (fun _ => 0) 1 f /\
  (forall i, g i = f i * 1 * (2 / (5 / 3 - 1) - 3)) /\ thermal_node S45 1 1 f g = Ok (f', g') /\
  energy2 S45 f g <= 301 / 100 * st_cs2 S45 /\ 6 * st_cs2 S45 <= energy2 S45 f' g'.
Proof.
  set (f := QuarticEquilibrium_calc (unscale S45 1) 1 (fun _ => 0 / 1) 1). set (g := fun i => f i * 1 * (2 / (5 / 3 - 1) - 3)).
  destruct (rest_flow 1 ltac:(lra) f 1 1 ltac:(lra) ltac:(lra) ltac:(reflexivity)) as (Hm & Hk & H2).
  destruct (rest_moments 1 ltac:(lra) f 1 1 ltac:(lra) ltac:(lra) ltac:(reflexivity)) as (_ & H1 & _).
  assert (Hd : dense S45 f) by (unfold dense; lra).
  destruct (thermal_total 1 f g 1 Hd) as [o Ho].
  assert (HN : exists f' g', thermal_node S45 1 1 f g = Ok (f', g')).
  { unfold thermal_node. rewrite Ho. cbn [obind]. destruct o as [[f' g']|]; eauto. }
  destruct HN as (f' & g' & HN). exists f, g, f', g'. split; [exists f; split; reflexivity|]. split; [reflexivity|]. split; [exact HN|].
  assert (Hg : mass S45 g = 0) by (unfold mass; apply sumf_zero; intros; unfold g; field).
  pose proof (cs2_45_pos 1 ltac:(lra)) as Hc.
  assert (HE : 299 / 100 * st_cs2 S45 <= energy2 S45 f g <= 301 / 100 * st_cs2 S45).
  { rewrite energy2_moments, Hg. change (st_D S45) with 3%nat. set (S2 := sumf 3 _) in *.
    pose proof (Rle_abs (S2 - 3 * 1 * 1 * st_cs2 S45)) as Q1. pose proof (Rle_abs (- (S2 - 3 * 1 * 1 * st_cs2 S45))) as Q2. rewrite Rabs_Ropp in Q2. lra. }
  split; [apply HE|].
  pose proof (temperature_energy' Stencil_D3Q45 1 (14 / 10) f ltac:(lra) ltac:(lra) Hd g) as ET.
  set (T := node_temperature (14 / 10) S45 f g) in *. set (m := mass S45 f) in *.
  set (K := m * dot (st_D S45) (node_flow S45 f) (node_flow S45 f)) in *.
  replace (2 / (14 / 10 - 1) * m * st_cs2 S45 * T) with (5 * (m * T) * st_cs2 S45) in ET by field.
  assert (HmT : 59 / 100 <= m * T <= 61 / 100).
  { set (mT := m * T) in *. set (c2 := st_cs2 S45) in *. assert (K <= 1 / 100 * c2) by lra. split; apply (Rmult_le_reg_r c2); lra. }
  assert (HT : 58 / 100 <= T <= 62 / 100) by nra.
  destruct (thermal_wall Stencil_D3Q45 1 1 f g f' g' ltac:(lra) HN) as (_ & _ & [[H _]|(_ & _ & _ & _ & He)]).
  { exfalso. fold T in H. rewrite Rabs_left in H by lra. lra. }
  fold T m K in He.
  assert (Hmach : mach S45 (node_flow S45 f) <= 1).
  { unfold mach. pose proof cs45_pos as Cp.
    assert (HS : sumf (st_D S45) (fun a => Rabs (node_flow S45 f a)) <= sumf (st_D S45) (fun a => 1 / 10 * Rabs (st_cs S45))).
    { apply sumf_le. intros a Ha. unfold node_flow, Rdiv at 1. rewrite Rabs_mult, (Rabs_right (/ mass S45 f)).
      2:{ apply Rle_ge. left. apply Rinv_0_lt_compat. fold m. lra. }
      apply (Rmult_le_reg_r m); [lra|]. fold m. rewrite Rmult_assoc, Rinv_l, Rmult_1_r by lra. eapply Rle_trans; [apply (H1 a Ha)|]. nra. }
    rewrite sumf_const in HS. change (INR (st_D S45)) with (INR 3) in HS. replace (INR 3) with 3 in HS by (cbn; ring).
    apply (Rmult_le_reg_r (Rabs (st_cs S45))); [exact Cp|]. unfold Rdiv. rewrite Rmult_assoc, Rinv_l by lra. lra. }
  assert (Hsz : forall x, Rabs (x - 1) <= 1 -> expansion_size S45 (node_flow S45 f) x <= 5 ^ 4).
  { intros x Hx. unfold expansion_size. apply pow_incr. change (INR (st_D S45)) with (INR 3). replace (INR 3) with 3 by (cbn; ring).
    pose proof (Rabs_pos (x - 1)). pose proof (mach_nonneg Stencil_D3Q45 1 (node_flow S45 f)). lra. }
  assert (Hsz0 : forall x, 0 <= expansion_size S45 (node_flow S45 f) x).
  { intros x. unfold expansion_size. apply pow_le. change (INR (st_D S45)) with (INR 3). replace (INR 3) with 3 by (cbn; ring).
    pose proof (Rabs_pos (x - 1)). pose proof (mach_nonneg Stencil_D3Q45 1 (node_flow S45 f)). lra. }
  pose proof (Hsz T ltac:(rewrite Rabs_left; lra)) as Z1. pose proof (Hsz 1 ltac:(rewrite Rabs_right; lra)) as Z2.
  pose proof (Hsz0 T) as Z3. pose proof (Hsz0 1) as Z4.
  set (E1 := expansion_size S45 (node_flow S45 f) T) in *. set (E2 := expansion_size S45 (node_flow S45 f) 1) in *. clearbody E1 E2.
  rewrite Hg in He. rewrite (Rabs_right 1) in He by lra.
  assert (B : high_tol Stencil_D3Q45 * m * (E1 + E2) <= 1 / 10 ^ 9).
  { change (high_tol Stencil_D3Q45) with (3 / 10 ^ 14). assert (m * (E1 + E2) <= 2 * (2 * 5 ^ 4)) by (apply Rmult_le_compat; lra). lra. }
  set (N := high_tol Stencil_D3Q45 * m * (E1 + E2)) in *. clearbody N.
  match type of He with Rabs (?x - ?y) <= _ => pose proof (Rle_abs (- (x - y))) as Q end. rewrite Rabs_Ropp in Q.
  assert (HNc : N * st_cs2 S45 * (3 + 2 * 1) <= 1 / 10 ^ 8 * st_cs2 S45) by nra.
  assert (Hmc : m * st_cs2 S45 >= 99 / 100 * st_cs2 S45) by nra. assert (HmTc : m * T * st_cs2 S45 >= 59 / 100 * st_cs2 S45) by nra. lra.
Qed.

(** In the isothermal solver. *)
Lemma isothermal_refuted cfg : exists f f', equilibrium_populations QuarticEquilibrium cfg S45 1 1 (fun _ => 0) 1 f /\
  thermal_node_f S45 1 1 f = Ok f' /\ mass S45 f <= 101 / 100 /\ 199 / 100 <= mass S45 f'.
Proof.
  set (f := QuarticEquilibrium_calc (unscale S45 1) 1 (fun _ => 0 / 1) 1).
  destruct (rest_flow 1 ltac:(lra) f 1 1 ltac:(lra) ltac:(lra) ltac:(reflexivity)) as (Hm & Hk & H2).
  destruct (rest_moments 1 ltac:(lra) f 1 1 ltac:(lra) ltac:(lra) ltac:(reflexivity)) as (_ & H1 & _).
  assert (Hd : dense S45 f) by (unfold dense; lra).
  destruct (thermal_total 1 f f 1 Hd) as [o Ho].
  assert (HN : exists f', thermal_node_f S45 1 1 f = Ok f').
  { unfold thermal_node_f. rewrite Ho. cbn [obind]. destruct o as [[f' g']|]; eauto. }
  destruct HN as (f' & HN). exists f, f'. split; [exists f; split; reflexivity|]. split; [exact HN|]. split; [lra|].
  pose proof (cs2_45_pos 1 ltac:(lra)) as Hc.
  pose proof (temperature_energy' Stencil_D3Q45 1 (14 / 10) f ltac:(lra) ltac:(lra) Hd f) as ET.
  set (T := node_temperature (14 / 10) S45 f f) in *. set (m := mass S45 f) in *.
  set (K := m * dot (st_D S45) (node_flow S45 f) (node_flow S45 f)) in *.
  replace (2 / (14 / 10 - 1) * m * st_cs2 S45 * T) with (5 * (m * T) * st_cs2 S45) in ET by field.
  rewrite energy2_moments in ET. change (st_D S45) with 3%nat in ET. set (S2 := sumf 3 (fun a => moment2 S45 f a a)) in *. fold m in ET.
  pose proof (Rle_abs (S2 - 3 * 1 * 1 * st_cs2 S45)) as Q1. pose proof (Rle_abs (- (S2 - 3 * 1 * 1 * st_cs2 S45))) as Q2. rewrite Rabs_Ropp in Q2.
  assert (HmT : 79 / 100 <= m * T <= 81 / 100).
  { set (mT := m * T) in *. set (c2 := st_cs2 S45) in *. assert (K <= 1 / 100 * c2) by lra. assert (m * c2 <= 101 / 100 * c2) by nra.
    assert (99 / 100 * c2 <= m * c2) by nra. split; apply (Rmult_le_reg_r c2); lra. }
  assert (HT : 78 / 100 <= T <= 82 / 100) by nra.
  destruct (thermal_f Stencil_D3Q45 1 1 f f' ltac:(lra) HN) as [[H _]|[_ He]].
  { exfalso. fold T in H. rewrite Rabs_left in H by lra. lra. }
  fold m in He.
  assert (Hmach : mach S45 (node_flow S45 f) <= 1).
  { unfold mach. pose proof cs45_pos as Cp.
    assert (HS : sumf (st_D S45) (fun a => Rabs (node_flow S45 f a)) <= sumf (st_D S45) (fun a => 1 / 10 * Rabs (st_cs S45))).
    { apply sumf_le. intros a Ha. unfold node_flow, Rdiv at 1. rewrite Rabs_mult, (Rabs_right (/ mass S45 f)).
      2:{ apply Rle_ge. left. apply Rinv_0_lt_compat. fold m. lra. }
      apply (Rmult_le_reg_r m); [lra|]. fold m. rewrite Rmult_assoc, Rinv_l, Rmult_1_r by lra. eapply Rle_trans; [apply (H1 a Ha)|]. nra. }
    rewrite sumf_const in HS. change (INR (st_D S45)) with (INR 3) in HS. replace (INR 3) with 3 in HS by (cbn; ring).
    apply (Rmult_le_reg_r (Rabs (st_cs S45))); [exact Cp|]. unfold Rdiv. rewrite Rmult_assoc, Rinv_l by lra. lra. }
  assert (Z1 : expansion_size S45 (node_flow S45 f) 1 <= 2 ^ 4).
  { unfold expansion_size. replace (1 - 1) with 0 by ring. rewrite Rabs_R0, Rmult_0_r. apply pow_incr.
    pose proof (mach_nonneg Stencil_D3Q45 1 (node_flow S45 f)). lra. }
  assert (Z2 : 0 <= expansion_size S45 (node_flow S45 f) 1).
  { unfold expansion_size. replace (1 - 1) with 0 by ring. rewrite Rabs_R0, Rmult_0_r. apply pow_le.
    pose proof (mach_nonneg Stencil_D3Q45 1 (node_flow S45 f)). lra. }
  set (E1 := expansion_size S45 (node_flow S45 f) 1) in *. clearbody E1.
  assert (B : high_tol Stencil_D3Q45 * m * E1 <= 1 / 10 ^ 9).
  { change (high_tol Stencil_D3Q45) with (3 / 10 ^ 14). assert (m * E1 <= 2 * 2 ^ 4) by (apply Rmult_le_compat; lra). lra. }
  rewrite (Rabs_right 1) in He by lra. pose proof (Rle_abs (- (mass S45 f' - 2 * 1 * m))) as Q. rewrite Rabs_Ropp in Q. lra.
Qed.
