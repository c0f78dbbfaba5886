(** Convergence, divergence and order of the multistep collision. *)
From Verif Require Import Prelude StencilData ModelStencils SpecStencils SpecCollision BigSum ProofStencils
  ModelConfigNames ModelEquilibria ModelCollision ProofEquilibria ProofEqMoments ProofCollideNode ProofCollideAll
  ModelOldCollision SpecOldCollision ProofOldCollision ProofOldNode ProofOldForce ProofOldLoop ModelMultistep SpecMultistep ProofMultistep ProofMultistep2.
Local Open Scope R_scope.

(** ** Sequences of second order *)
Section Second.
  Variables (al be q C : R) (a : nat -> R).
  Hypothesis Hal : 0 <= al.
  Hypothesis Hbe : 0 <= be.
  Lemma second_decay : q = al + be -> q <= 1 -> (forall k, Rabs (a (S (S k))) <= al * Rabs (a (S k)) + be * Rabs (a k)) ->
    Rabs (a 0%nat) <= C -> Rabs (a 1%nat) <= C ->
    forall j, Rabs (a (2 * j)%nat) <= C * q ^ j /\ Rabs (a (S (2 * j))) <= C * q ^ j.
  Proof.
    intros Hq Hq1 H H0 H1. assert (Hq0 : 0 <= q) by lra.
    induction j as [|j [I1 I2]].
    - replace (2 * 0)%nat with 0%nat by lia. rewrite pow_O. split; lra.
    - replace (2 * S j)%nat with (S (S (2 * j))) by lia.
      assert (P1 : Rabs (a (S (S (2 * j)))) <= C * q ^ S j).
      { apply (Rle_trans _ _ _ (H (2 * j)%nat)). cbn [pow]. rewrite Hq at 1.
        apply (Rle_trans _ (al * (C * q ^ j) + be * (C * q ^ j))); [apply Rplus_le_compat; apply Rmult_le_compat_l; assumption|right; ring]. }
      split; [exact P1|].
      apply (Rle_trans _ _ _ (H (S (2 * j)))).
      assert (P0 : 0 <= C * q ^ j) by (apply (Rle_trans _ (Rabs (a (2 * j)%nat))); [apply Rabs_pos|exact I1]).
      assert (P2 : Rabs (a (S (S (2 * j)))) <= C * q ^ j).
      { apply (Rle_trans _ _ _ P1). cbn [pow]. replace (C * (q * q ^ j)) with (q * (C * q ^ j)) by ring.
        rewrite <- (Rmult_1_l (C * q ^ j)) at 2. apply Rmult_le_compat_r; assumption. }
      cbn [pow]. rewrite Hq at 1.
      apply (Rle_trans _ (al * (C * q ^ j) + be * (C * q ^ j))); [apply Rplus_le_compat; apply Rmult_le_compat_l; assumption|right; ring].
  Qed.
  Lemma second_growth : q = al + be -> 1 <= q -> (forall k, al * a (S k) + be * a k <= a (S (S k))) ->
    0 <= C -> C <= a 0%nat -> C <= a 1%nat ->
    forall j, C * q ^ j <= a (2 * j)%nat /\ C * q ^ j <= a (S (2 * j)).
  Proof.
    intros Hq Hq1 H HC H0 H1.
    induction j as [|j [I1 I2]].
    - replace (2 * 0)%nat with 0%nat by lia. rewrite pow_O. split; lra.
    - replace (2 * S j)%nat with (S (S (2 * j))) by lia.
      assert (P1 : C * q ^ S j <= a (S (S (2 * j)))).
      { apply (Rle_trans _ (al * a (S (2 * j)) + be * a (2 * j)%nat)); [|exact (H (2 * j)%nat)]. cbn [pow]. rewrite Hq at 1.
        apply (Rle_trans _ (al * (C * q ^ j) + be * (C * q ^ j))); [right; ring|apply Rplus_le_compat; apply Rmult_le_compat_l; assumption]. }
      split; [exact P1|].
      apply (Rle_trans _ (al * a (S (S (2 * j))) + be * a (S (2 * j)))); [|exact (H (S (2 * j)))].
      assert (P0 : 0 <= C * q ^ j) by (apply Rmult_le_pos; [exact HC|apply pow_le; lra]).
      assert (P2 : C * q ^ j <= a (S (S (2 * j)))).
      { refine (Rle_trans _ _ _ _ P1). cbn [pow]. replace (C * (q * q ^ j)) with (q * (C * q ^ j)) by ring.
        rewrite <- (Rmult_1_l (C * q ^ j)) at 1. apply Rmult_le_compat_r; assumption. }
      cbn [pow]. rewrite Hq at 1.
      apply (Rle_trans _ (al * (C * q ^ j) + be * (C * q ^ j))); [right; ring|apply Rplus_le_compat; apply Rmult_le_compat_l; assumption].
  Qed.
End Second.

Lemma small_pow C q eps : 0 <= q < 1 -> 0 <= C -> 0 < eps -> exists N, forall j, (N <= j)%nat -> C * q ^ j < eps.
Proof.
  intros [Hq0 Hq1] HC He.
  assert (Hx : 0 < eps / (C + 1)) by (apply Rdiv_lt_0_compat; lra).
  destruct (pow_lt_1_zero q (ltac:(rewrite Rabs_right; lra)) _ Hx) as [N HN]. exists N. intros j Hj.
  specialize (HN j Hj). assert (Hp : 0 <= q ^ j) by (apply pow_le; exact Hq0). rewrite Rabs_right in HN by lra.
  apply (Rle_lt_trans _ ((C + 1) * q ^ j)); [nra|].
  apply (Rlt_le_trans _ ((C + 1) * (eps / (C + 1)))); [apply Rmult_lt_compat_l; lra|right; field; lra].
Qed.

(** Summable squares vanish. *)
Lemma summable_vanish (u : nat -> R) B : (forall k, 0 <= u k) -> (forall k, sum_f_R0 u k <= B) -> Un_cv u 0.
Proof.
  intros Hp Hb.
  assert (Hg : Un_growing (sum_f_R0 u)) by (intros k; cbn [sum_f_R0]; specialize (Hp (S k)); lra).
  assert (Hub : has_ub (sum_f_R0 u)) by (exists B; intros y [k ->]; apply Hb).
  destruct (growing_cv _ Hg Hub) as [l Hl]. pose proof (CV_Cauchy _ (exist _ l Hl)) as Hc.
  intros eps He. destruct (Hc eps He) as [N HN]. exists (S N). intros k Hk. destruct k as [|k]; [lia|].
  specialize (HN (S k) k (ltac:(lia)) (ltac:(lia))). unfold R_dist in *. cbn [sum_f_R0] in HN.
  replace (sum_f_R0 u k + u (S k) - sum_f_R0 u k) with (u (S k) - 0) in HN by ring. exact HN.
Qed.
Lemma square_vanish (u : nat -> R) : Un_cv (fun k => u k * u k) 0 -> Un_cv u 0.
Proof.
  intros H eps He. destruct (H (eps * eps) (ltac:(nra))) as [N HN]. exists N. intros k Hk. specialize (HN k Hk).
  unfold R_dist in *. rewrite Rminus_0_r in *. rewrite Rabs_right in HN by nra.
  rewrite <- (Rabs_right eps) by lra. apply Rsqr_lt_abs_0. unfold Rsqr. exact HN.
Qed.

(** ** The object of the solver *)
Section Solver.
  Variables (c : multistep_scheme) (s nu dt : R) (m : multi).
  Hypothesis Hs : s <> 0.
  Hypothesis Hm : make_multi c Stencil_D2Q9 s nu dt = Ok m.
  Let st := D2Q9 s.
  Definition ratio : R := nu / (st_cs2 (D2Q9 s) * dt).

  Lemma made : 0 < nu /\ 0 < dt /\ mu_scheme m = c /\ mu_nu m = nu /\ om_t (mu_m m) = Stencil_D2Q9 /\ om_s (mu_m m) = s /\
    om_dt (mu_m m) = dt /\ om_forceType (mu_m m) = NO_FORCING.
  Proof.
    clear Hs. unfold make_multi, calculateRelaxationParameter in Hm. destruct (Rlt_dec 0 nu); [|discriminate]. destruct (Rlt_dec 0 dt); [|discriminate].
    cbn [obind] in Hm. injection Hm as <-. repeat split; assumption.
  Qed.
  Lemma cs_pos : 0 < st_cs2 st.
  Proof. exact (cs2_pos Stencil_D2Q9 s Hs). Qed.
  Lemma ratio_pos : 0 < ratio.
  Proof. destruct made as (Hn & Hd & _). apply Rdiv_lt_0_compat; [exact Hn|apply Rmult_lt_0_compat; [apply cs_pos|exact Hd]]. Qed.
  Lemma lambda_ok : multi_lambda m = nu / st_cs2 st /\ multi_lambda m / om_dt (mu_m m) = ratio.
  Proof.
    destruct made as (Hn & Hd & _ & En & Et & Es & Ed & _). unfold multi_lambda. rewrite En, Et, Es, Ed. cbn [stencil_of].
    split; [reflexivity|]. unfold ratio. fold st. pose proof cs_pos. field. split; lra.
  Qed.
  Lemma factor0_ok : factor0 m = match c with ADAMSMOULTON4 => - 13 / (12 * ratio + 5) | BDF2 => - 8 / (9 * ratio + 6) end.
  Proof.
    destruct made as (Hn & Hd & Ec & _). destruct lambda_ok as [_ E]. pose proof ratio_pos as Hr. unfold factor0. rewrite Ec.
    unfold Rdiv in E |- *. destruct c.
    - replace (12 * / 13 * multi_lambda m * / om_dt (mu_m m)) with (12 * / 13 * (multi_lambda m * / om_dt (mu_m m))) by ring. rewrite E. field. lra.
    - replace (9 * / 8 * multi_lambda m * / om_dt (mu_m m)) with (9 * / 8 * (multi_lambda m * / om_dt (mu_m m))) by ring. rewrite E. field. lra.
  Qed.
  Lemma factor1_ok : factor1 m = match c with ADAMSMOULTON4 => 1 / (12 * ratio + 5) | BDF2 => 2 / (9 * ratio + 6) end.
  Proof.
    destruct made as (Hn & Hd & Ec & _). destruct lambda_ok as [_ E]. pose proof ratio_pos as Hr. unfold factor1. rewrite Ec.
    unfold Rdiv in E |- *. destruct c.
    - replace (12 * multi_lambda m * / om_dt (mu_m m)) with (12 * (multi_lambda m * / om_dt (mu_m m))) by ring. rewrite E. reflexivity.
    - replace (9 * / 2 * multi_lambda m * / om_dt (mu_m m)) with (9 * / 2 * (multi_lambda m * / om_dt (mu_m m))) by ring. rewrite E. field. lra.
  Qed.
  Lemma relax_ok : relax_factor m = - 2 / (2 * ratio + 1).
  Proof.
    destruct lambda_ok as [_ E]. pose proof ratio_pos as Hr. unfold relax_factor. rewrite E. field. lra.
  Qed.

  (** Coefficients of the recurrence. *)
  Lemma rec_coeffs :
    adv_f m + factor0 m = match c with ADAMSMOULTON4 => (12 * ratio - 8) / (12 * ratio + 5) | BDF2 => 4 * ratio / (3 * ratio + 2) end /\
    adv_F m + factor1 m = match c with ADAMSMOULTON4 => 1 / (12 * ratio + 5) | BDF2 => - ratio / (3 * ratio + 2) end /\
    amp m 1 = match c with ADAMSMOULTON4 => (12 * ratio - 8) / (12 * ratio + 5) | BDF2 => (9 * ratio - 2) / (9 * ratio + 6) end.
  Proof.
    destruct made as (Hn & Hd & Ec & _). pose proof ratio_pos as Hr. rewrite amp_1, factor0_ok, factor1_ok. unfold adv_f, adv_F. rewrite Ec.
    destruct c; repeat split; field; lra.
  Qed.

  (** ** Adams-Moulton *)
  Lemma am4_settles : c = ADAMSMOULTON4 -> 1/6 < ratio -> Un_cv (amp m) 0.
  Proof.
    intros Ec HL. destruct rec_coeffs as (EA & EB & E1). rewrite Ec in EA, EB, E1. pose proof ratio_pos as Hr.
    set (A := (12 * ratio - 8) / (12 * ratio + 5)) in *. set (B := 1 / (12 * ratio + 5)) in *.
    assert (HB : 0 < B) by (apply Rdiv_lt_0_compat; lra).
    assert (HA : Rabs A + B < 1).
    { assert (HA1 : A + B < 1). { unfold A, B. apply (Rmult_lt_reg_r (12 * ratio + 5)); [lra|]. unfold Rdiv. rewrite Rmult_plus_distr_r, !Rmult_assoc, !Rinv_l by lra. lra. }
      assert (HA2 : - A + B < 1). { unfold A, B. apply (Rmult_lt_reg_r (12 * ratio + 5)); [lra|]. unfold Rdiv. rewrite Rmult_plus_distr_r.
        replace (- ((12 * ratio - 8) * / (12 * ratio + 5)) * (12 * ratio + 5)) with (- (12 * ratio - 8)) by (field; lra). rewrite !Rmult_assoc, !Rinv_l by lra. lra. }
      unfold Rabs. destruct (Rcase_abs A); lra. }
    assert (Hrec : forall k, Rabs (amp m (S (S k))) <= Rabs A * Rabs (amp m (S k)) + B * Rabs (amp m k)).
    { intros k. rewrite amp_rec, EA, EB. apply (Rle_trans _ _ _ (Rabs_triang _ _)). rewrite !Rabs_mult, (Rabs_right B) by lra. right. reflexivity. }
    pose proof (second_decay (Rabs A) B (Rabs A + B) 1 (amp m) (Rabs_pos A) (Rlt_le _ _ HB) eq_refl (Rlt_le _ _ HA) Hrec) as D.
    rewrite amp_0, E1, Rabs_R1 in D. specialize (D (Rle_refl 1) (ltac:(lra))).
    intros eps He. destruct (small_pow 1 (Rabs A + B) eps) as [N HN]; [pose proof (Rabs_pos A); lra|lra|exact He|].
    exists (2 * N + 1)%nat. intros k Hk. unfold R_dist. rewrite Rminus_0_r.
    destruct (Nat.Even_or_Odd k) as [[j ->]|[j ->]].
    - apply (Rle_lt_trans _ _ _ (proj1 (D j))). apply HN. lia.
    - replace (2 * j + 1)%nat with (S (2 * j)) by lia. apply (Rle_lt_trans _ _ _ (proj2 (D j))). apply HN. lia.
  Qed.

  Let b (k : nat) : R := (-1) ^ k * amp m k.
  Lemma b_abs k : Rabs (b k) = Rabs (amp m k).
  Proof. unfold b. rewrite Rabs_mult, pow_1_abs. ring. Qed.
  Lemma am4_growth : c = ADAMSMOULTON4 -> ratio <= 1/6 ->
    exists q C, 1 <= q /\ (ratio < 1/6 -> 1 < q) /\ 0 < C /\ forall j, C * q ^ j <= Rabs (amp m (2 * j)) /\ C * q ^ j <= Rabs (amp m (S (2 * j))).
  Proof.
    intros Ec HL. destruct rec_coeffs as (EA & EB & E1). rewrite Ec in EA, EB, E1. pose proof ratio_pos as Hr.
    set (G := (8 - 12 * ratio) / (12 * ratio + 5)). set (B := 1 / (12 * ratio + 5)) in *.
    assert (EG : (12 * ratio - 8) / (12 * ratio + 5) = - G) by (unfold G; field; lra). rewrite EG in EA, E1.
    assert (HB : 0 < B) by (apply Rdiv_lt_0_compat; lra).
    assert (HG : 0 < G) by (apply Rdiv_lt_0_compat; lra).
    assert (Esum : G + B = 1 + (4 - 24 * ratio) / (12 * ratio + 5)) by (unfold G, B; field; lra).
    assert (Hi : 0 < / (12 * ratio + 5)) by (apply Rinv_0_lt_compat; lra).
    assert (Hrec : forall k, G * b (S k) + B * b k <= b (S (S k))).
    { intros k. right. unfold b. rewrite amp_rec, EA, EB. cbn [pow]. ring. }
    exists (G + B), (Rmin 1 G). split; [|split; [|split]].
    - rewrite Esum. assert (0 <= (4 - 24 * ratio) / (12 * ratio + 5)) by (unfold Rdiv; apply Rmult_le_pos; lra). lra.
    - intros HL'. rewrite Esum. assert (0 < (4 - 24 * ratio) / (12 * ratio + 5)) by (unfold Rdiv; apply Rmult_lt_0_compat; lra). lra.
    - apply Rmin_glb_lt; lra.
    - intros j.
      assert (HC : 0 <= Rmin 1 G) by (apply Rmin_glb; lra).
      assert (H1 : 1 <= G + B).
      { rewrite Esum. assert (0 <= (4 - 24 * ratio) / (12 * ratio + 5)) by (unfold Rdiv; apply Rmult_le_pos; lra). lra. }
      destruct (second_growth G B (G + B) (Rmin 1 G) b (Rlt_le _ _ HG) (Rlt_le _ _ HB) eq_refl H1 Hrec HC) with (j := j) as [D1 D2].
      + unfold b. rewrite amp_0, pow_O. pose proof (Rmin_l 1 G). lra.
      + unfold b. rewrite E1, pow_1. pose proof (Rmin_r 1 G). lra.
      + rewrite <- (b_abs (2 * j)), <- (b_abs (S (2 * j))).
        split; [apply (Rle_trans _ _ _ D1)|apply (Rle_trans _ _ _ D2)]; apply Rle_abs.
  Qed.

  (** ** Backward differentiation *)
  Lemma bdf2_settles : c = BDF2 -> Un_cv (amp m) 0.
  Proof.
    intros Ec. destruct rec_coeffs as (EA & EB & _). rewrite Ec in EA, EB. pose proof ratio_pos as Hr.
    set (En := fun k => amp m (S k) * amp m (S k) + (2 * amp m (S k) - amp m k) * (2 * amp m (S k) - amp m k)).
    assert (Hen : forall k, En (S k) + 4 / ratio * (amp m (S (S k)) * amp m (S (S k))) <= En k).
    { intros k. unfold En.
      assert (R0 : 4 * amp m (S k) - amp m k = (3 + 2 / ratio) * amp m (S (S k))).
      { rewrite (amp_rec m k), EA, EB. field. lra. }
      set (y := amp m (S (S k))) in *. set (x := amp m (S k)) in *. set (z := amp m k) in *.
      assert (Hz : z = 4 * x - (3 + 2 / ratio) * y) by lra.
      set (t := 2 / ratio) in *. assert (Ht : 0 < t) by (apply Rdiv_lt_0_compat; lra).
      replace (4 / ratio) with (2 * t) by (unfold t; field; lra).
      assert (I : x * x + (2 * x - z) * (2 * x - z) - (y * y + (2 * y - x) * (2 * y - x)) - 2 * t * (y * y) = (y - 2 * x + z) * (y - 2 * x + z)).
      { rewrite Hz. ring. }
      pose proof (Rle_0_sqr (y - 2 * x + z)) as Hq. unfold Rsqr in Hq. lra. }
    assert (Hsum : forall k, 4 / ratio * sum_f_R0 (fun j => amp m (S (S j)) * amp m (S (S j))) k + En (S k) <= En 0%nat).
    { induction k as [|k IH].
      - cbn [sum_f_R0]. pose proof (Hen 0%nat) as H0. lra.
      - pose proof (Hen (S k)) as H1. rewrite tech5. cbv beta. rewrite Rmult_plus_distr_l. lra. }
    assert (Hcv : Un_cv (fun j => amp m (S (S j))) 0).
    { apply square_vanish. apply (summable_vanish _ (ratio / 4 * En 0%nat)).
      - intros k. apply Rle_0_sqr.
      - intros k. specialize (Hsum k).
        assert (Hp : 0 <= En (S k)) by (unfold En; apply Rplus_le_le_0_compat; apply Rle_0_sqr).
        apply (Rmult_le_reg_l (4 / ratio)); [apply Rdiv_lt_0_compat; lra|].
        replace (4 / ratio * (ratio / 4 * En 0%nat)) with (En 0%nat) by (field; lra).
        refine (Rle_trans _ _ _ _ Hsum). rewrite <- (Rplus_0_r (4 / ratio * _)) at 1. apply Rplus_le_compat_l. exact Hp. }
    intros eps He. destruct (Hcv eps He) as [N HN]. exists (S (S N)). intros k Hk.
    destruct k as [|[|k]]; [lia|lia|]. apply HN. lia.
  Qed.

  (** ** Order *)
  Lemma method_ok e d :
    multistep_method c (nu / st_cs2 st) dt e (fun k => e + amp m k * d / (1 + implicit_weight c / ratio)).
  Proof.
    destruct rec_coeffs as (EA & EB & _). pose proof ratio_pos as Hr. pose proof cs_pos as Hc. destruct made as (Hn & Hd & _).
    assert (El : - dt / (nu / st_cs2 st) = - / ratio) by (unfold ratio; fold st; field; repeat split; lra).
    destruct c; cbn [multistep_method implicit_weight].
    - intros k. rewrite El. rewrite (amp_rec m k), EA, EB. field. repeat split; lra.
    - intros k. rewrite El. rewrite (amp_rec m k), EA, EB. field. repeat split; lra.
  Qed.
End Solver.
