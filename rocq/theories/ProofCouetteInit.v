(** The series of the Couette flow starts from the fluid at rest. *)
From Verif Require Import Prelude ModelBenchmarks SpecBenchmarks ProofDeriv ProofSeries ProofBenchCouette.
Local Open Scope R_scope.

Lemma dl_div : forall f g x f' g', derivable_pt_lim f x f' -> derivable_pt_lim g x g' -> g x <> 0 ->
  derivable_pt_lim (fun s => f s / g s) x ((f' * g x - g' * f x) / (g x * g x)).
Proof. intros f g x f' g' F G N. apply (derivable_pt_lim_div f g x f' g' F G N). Qed.

(** ** The partial sums of the saw tooth *)
Definition saw (k : nat) (x : R) : R := (-1) ^ k / INR (S k) * sin (INR (S k) * x).
Definition saws (n : nat) (x : R) : R := sum_f_R0 (fun k => saw k x) n.
Definition kern (n : nat) (x : R) : R := sum_f_R0 (fun k => (-1) ^ k * cos (INR (S k) * x)) n.

Lemma kern_closed : forall n x, 2 * cos (x / 2) * kern n x = cos (x / 2) + (-1) ^ n * cos ((INR n + 3 / 2) * x).
Proof.
  assert (P : forall a b, 2 * cos b * cos a = cos (a + b) + cos (a - b)).
  { intros a b. rewrite cos_plus, cos_minus. ring. }
  intros n x. induction n as [|n IH].
  - unfold kern. cbn [sum_f_R0 pow]. replace (2 * cos (x / 2) * (1 * cos (INR 1 * x))) with (2 * cos (x / 2) * cos (INR 1 * x)) by ring.
    rewrite P.
    replace (INR 1 * x + x / 2) with ((INR 0 + 3 / 2) * x) by (cbn [INR]; field).
    replace (INR 1 * x - x / 2) with (x / 2) by (cbn [INR]; field). ring.
  - unfold kern. rewrite tech5. fold (kern n x). rewrite Rmult_plus_distr_l, IH.
    replace (2 * cos (x / 2) * ((-1) ^ S n * cos (INR (S (S n)) * x)))
      with ((-1) ^ S n * (2 * cos (x / 2) * cos (INR (S (S n)) * x))) by ring.
    rewrite P.
    replace (INR (S (S n)) * x + x / 2) with ((INR (S n) + 3 / 2) * x) by (rewrite !S_INR; field).
    replace (INR (S (S n)) * x - x / 2) with ((INR n + 3 / 2) * x) by (rewrite !S_INR; field).
    simpl pow. ring.
Qed.

Lemma saws_deriv : forall n x, derivable_pt_lim (saws n) x (kern n x).
Proof.
  assert (one : forall k x, derivable_pt_lim (saw k) x ((-1) ^ k * cos (INR (S k) * x))).
  { intros k x. unfold saw. pose proof (inr_pos k). eapply dl_eq; [dl|]. field. lra. }
  intros n x. unfold saws, kern. induction n as [|n IH].
  - apply (one O x).
  - apply (dl_eq _ _ _ _ (dl_plus (fun y => sum_f_R0 (fun k => saw k y) n) (saw (S n)) _ _ _ IH (one (S n) x))).
    reflexivity.
Qed.

Definition osc (n : nat) (x : R) : R := (-1) ^ n * sin ((INR n + 3 / 2) * x) / ((2 * INR n + 3) * cos (x / 2)).
Definition rem (n : nat) (x : R) : R := saws n x - x / 2 - osc n x.
Definition rem1 (n : nat) (x : R) : R :=
  - ((-1) ^ n * sin ((INR n + 3 / 2) * x) * sin (x / 2) / (2 * (2 * INR n + 3) * cos (x / 2) ^ 2)).

Lemma rem_deriv : forall n x, cos (x / 2) <> 0 -> derivable_pt_lim (rem n) x (rem1 n x).
Proof.
  intros n x Hc. unfold rem. pose proof (pos_INR n) as Hn.
  pose proof (kern_closed n x) as K.
  assert (E : kern n x = / 2 + (-1) ^ n * cos ((INR n + 3 / 2) * x) / (2 * cos (x / 2))).
  { apply (Rmult_eq_reg_l (2 * cos (x / 2))); [rewrite K; field; exact Hc|lra]. }
  assert (D : derivable_pt_lim (osc n) x
    ((-1) ^ n * cos ((INR n + 3 / 2) * x) / (2 * cos (x / 2)) +
     (-1) ^ n * sin ((INR n + 3 / 2) * x) * sin (x / 2) / (2 * (2 * INR n + 3) * cos (x / 2) ^ 2))).
  { unfold osc. eapply dl_eq.
    - apply (dl_div (fun y => (-1) ^ n * sin ((INR n + 3 / 2) * y)) (fun y => (2 * INR n + 3) * cos (y / 2))); [dl|dl|].
      apply Rmult_integral_contrapositive_currified; [lra|exact Hc].
    - cbv beta. field. split; [exact Hc|lra]. }
  eapply dl_eq.
  - apply (dl_minus (fun y => saws n y - y / 2) (osc n)); [|exact D].
    apply (dl_minus (saws n) (fun y => y / 2)); [apply saws_deriv|dl].
  - rewrite E. unfold rem1. field. split; [exact Hc|lra].
Qed.

Lemma cos_half : forall x x1, 0 <= x <= x1 -> x1 < PI -> 0 < cos (x1 / 2) <= cos (x / 2).
Proof.
  intros x x1 H H1. pose proof PI_RGT_0. split.
  - apply cos_gt_0; lra.
  - apply cos_decr_1; lra.
Qed.

Lemma saws_zero : forall n, saws n 0 = 0.
Proof.
  intros n. unfold saws. induction n as [|m IH]; [cbn [sum_f_R0]|rewrite tech5, IH];
    unfold saw; rewrite Rmult_0_r, sin_0; ring.
Qed.

(** The partial sums of the saw tooth tend to x/2 with the rate 1/n. *)
Definition rate_const (x1 : R) : R := / cos (x1 / 2) + PI / cos (x1 / 2) ^ 2.
Lemma rate_const_pos : forall x1, 0 <= x1 < PI -> 0 < rate_const x1.
Proof.
  intros x1 H. pose proof (cos_half x1 x1 ltac:(lra) ltac:(lra)) as [C _]. pose proof PI_RGT_0. unfold rate_const.
  apply Rplus_lt_0_compat; [apply Rinv_0_lt_compat; exact C|].
  unfold Rdiv at 1. apply Rmult_lt_0_compat; [assumption|]. apply Rinv_0_lt_compat, pow_lt; exact C.
Qed.
Lemma saws_rate : forall n x x1, 0 <= x <= x1 -> x1 < PI -> Rabs (saws n x - x / 2) <= rate_const x1 / (INR n + 1).
Proof.
  intros n x x1 H H1. pose proof (pos_INR n) as Hn. pose proof PI_RGT_0 as HP.
  pose proof (cos_half x x1 H H1) as [C1 C2]. unfold rate_const. set (c := cos (x1 / 2)) in *.
  assert (Hc2 : 0 < c ^ 2) by (apply pow_lt; exact C1).
  assert (B1 : forall y, 0 <= y <= x -> Rabs (rem1 n y) <= / (c ^ 2 * (INR n + 1))).
  { intros y Hy. pose proof (cos_half y x1 ltac:(lra) H1) as [_ C3]. fold c in C3.
    assert (C4 : c ^ 2 <= cos (y / 2) ^ 2) by (apply pow_incr; lra).
    unfold rem1. rewrite Rabs_Ropp.
    assert (P : 0 < 2 * (2 * INR n + 3) * cos (y / 2) ^ 2) by (apply Rmult_lt_0_compat; lra).
    assert (Q : c ^ 2 * (INR n + 1) <= 2 * (2 * INR n + 3) * cos (y / 2) ^ 2).
    { rewrite (Rmult_comm (c ^ 2)). apply Rmult_le_compat; lra. }
    set (D := 2 * (2 * INR n + 3) * cos (y / 2) ^ 2) in *. clearbody D.
    unfold Rdiv. rewrite !Rabs_mult, pow1_abs, Rmult_1_l, Rabs_inv, (Rabs_pos_eq D) by lra.
    apply Rle_trans with (1 * 1 * / (c ^ 2 * (INR n + 1))); [|lra].
    apply Rmult_le_compat.
    - apply Rmult_le_pos; apply Rabs_pos.
    - left; apply Rinv_0_lt_compat; exact P.
    - apply Rmult_le_compat; try apply Rabs_pos; apply sin_abs.
    - apply Rinv_le_contravar; [apply Rmult_lt_0_compat; lra|exact Q]. }
  assert (Z : rem n 0 = 0).
  { unfold rem, osc. rewrite saws_zero, Rmult_0_r, sin_0. unfold Rdiv. ring. }
  assert (B2 : Rabs (rem n x) <= PI / c ^ 2 / (INR n + 1)).
  { assert (G : 0 <= PI / c ^ 2 / (INR n + 1)).
    { unfold Rdiv. apply Rmult_le_pos; [apply Rmult_le_pos; [lra|]|]; left; apply Rinv_0_lt_compat; lra. }
    destruct (proj1 H) as [Hx|Hx]; [|rewrite <- Hx, Z, Rabs_R0; exact G].
    destruct (MVT_cor2 (rem n) (rem1 n) 0 x Hx) as (y & E & Hy).
    - intros y Hy. apply rem_deriv. pose proof (cos_half y x1 ltac:(lra) H1). lra.
    - rewrite Z, !Rminus_0_r in E. rewrite E, Rabs_mult, (Rabs_pos_eq x) by lra.
      replace (PI / c ^ 2 / (INR n + 1)) with (/ (c ^ 2 * (INR n + 1)) * PI) by (field; lra).
      apply Rmult_le_compat; [apply Rabs_pos|lra|apply B1; lra|lra]. }
  assert (B3 : Rabs (osc n x) <= / c / (INR n + 1)).
  { unfold osc. assert (P : 0 < (2 * INR n + 3) * cos (x / 2)) by (apply Rmult_lt_0_compat; lra).
    assert (Q : c * (INR n + 1) <= (2 * INR n + 3) * cos (x / 2)).
    { rewrite (Rmult_comm c). apply Rmult_le_compat; lra. }
    set (D := (2 * INR n + 3) * cos (x / 2)) in *. clearbody D.
    unfold Rdiv. rewrite !Rabs_mult, pow1_abs, Rmult_1_l, Rabs_inv, (Rabs_pos_eq D) by lra.
    rewrite <- Rinv_mult. rewrite <- (Rmult_1_l (/ (c * (INR n + 1)))).
    apply Rmult_le_compat; [apply Rabs_pos|left; apply Rinv_0_lt_compat; exact P|apply sin_abs|].
    apply Rinv_le_contravar; [apply Rmult_lt_0_compat; lra|exact Q]. }
  replace (saws n x - x / 2) with (osc n x + rem n x) by (unfold rem; ring).
  eapply Rle_trans; [apply Rabs_triang|].
  replace ((/ c + PI / c ^ 2) / (INR n + 1)) with (/ c / (INR n + 1) + PI / c ^ 2 / (INR n + 1)) by (field; lra).
  lra.
Qed.

(** ** Damped sums *)
Section Damped.
  Variables (b q : nat -> R) (A K s : R).
  Hypotheses (HK : 0 <= K)
    (rateb : forall n, Rabs (sum_f_R0 b n - A) <= K / (INR n + 1))
    (q_range : forall n, 0 <= q n <= 1) (q_step : forall n, 0 <= q n - q (S n) <= 3 * (INR n + 1) * s).
  Let B (n : nat) : R := sum_f_R0 b n - A.
  Fixpoint varia (n : nat) : R := match n with O => 0 | S k => varia k + Rabs (B k) * (q k - q (S k)) end.

  Lemma abel : forall n, Rabs (sum_f_R0 (fun k => b k * q k) n - A * q O) <= Rabs (B n) * q n + varia n.
  Proof.
    assert (ex : forall n, exists v, Rabs v <= varia n /\ sum_f_R0 (fun k => b k * q k) n - A * q O = B n * q n + v).
    { induction n as [|n (v & Hv & E)].
      - exists 0. cbn [varia sum_f_R0]. rewrite Rabs_R0. split; [lra|]. unfold B. cbn [sum_f_R0]. ring.
      - exists (v + B n * (q n - q (S n))). cbn [varia]. split.
        + eapply Rle_trans; [apply Rabs_triang|]. rewrite Rabs_mult, (Rabs_pos_eq (q n - q (S n))) by apply q_step. lra.
        + rewrite tech5.
          replace (sum_f_R0 (fun k => b k * q k) n + b (S n) * q (S n) - A * q O)
            with (sum_f_R0 (fun k => b k * q k) n - A * q O + b (S n) * q (S n)) by ring.
          rewrite E. unfold B. rewrite (tech5 b). ring. }
    intros n. destruct (ex n) as (v & Hv & E). rewrite E. eapply Rle_trans; [apply Rabs_triang|].
    rewrite Rabs_mult, (Rabs_pos_eq (q n)) by apply q_range. lra.
  Qed.
  Lemma varia_small : forall n, varia n <= 3 * K * s * INR n.
  Proof.
    induction n as [|n IH]; [cbn [varia INR]; lra|]. cbn [varia]. rewrite S_INR.
    assert (T : Rabs (B n) * (q n - q (S n)) <= K / (INR n + 1) * (3 * (INR n + 1) * s)).
    { apply Rmult_le_compat; [apply Rabs_pos|apply q_step|apply rateb|apply q_step]. }
    pose proof (pos_INR n). replace (K / (INR n + 1) * (3 * (INR n + 1) * s)) with (3 * K * s) in T by (field; lra). lra.
  Qed.
  Lemma varia_late : forall M j, varia (M + j) <= varia M + K / (INR M + 1) * (q M - q (M + j)%nat).
  Proof.
    intros M j. induction j as [|j IH]; [rewrite Nat.add_0_r; lra|].
    rewrite Nat.add_succ_r. cbn [varia].
    assert (T : Rabs (B (M + j)) * (q (M + j)%nat - q (S (M + j))) <= K / (INR M + 1) * (q (M + j)%nat - q (S (M + j)))).
    { apply Rmult_le_compat_r; [apply q_step|]. eapply Rle_trans; [apply rateb|].
      apply Rmult_le_compat_l; [exact HK|]. pose proof (pos_INR M). pose proof (pos_INR j).
      apply Rinv_le_contravar; [lra|]. rewrite plus_INR. lra. }
    lra.
  Qed.
  Lemma damped : forall M n, (M <= n)%nat ->
    Rabs (sum_f_R0 (fun k => b k * q k) n - A * q O) <= 3 * K * s * INR M + 2 * (K / (INR M + 1)).
  Proof.
    intros M n H. eapply Rle_trans; [apply abel|].
    pose proof (varia_late M (n - M)) as V. replace (M + (n - M))%nat with n in V by lia.
    pose proof (varia_small M) as W. pose proof (pos_INR M) as HM. pose proof (pos_INR n) as Hn.
    assert (G : 0 <= K / (INR M + 1)) by (unfold Rdiv; apply Rmult_le_pos; [exact HK|left; apply Rinv_0_lt_compat; lra]).
    assert (T : Rabs (B n) * q n <= K / (INR M + 1) * 1).
    { apply Rmult_le_compat; [apply Rabs_pos|apply q_range| |apply q_range].
      eapply Rle_trans; [apply rateb|]. apply Rmult_le_compat_l; [exact HK|].
      apply Rinv_le_contravar; [lra|]. apply le_INR in H. lra. }
    assert (U : K / (INR M + 1) * (q M - q n) <= K / (INR M + 1) * 1).
    { apply Rmult_le_compat_l; [exact G|]. pose proof (q_range M). pose proof (q_range n). lra. }
    lra.
  Qed.
End Damped.

Section Start.
  Variables (nu U L : R).
  Hypotheses (Hnu : 0 < nu) (HL : 0 < L).

  Lemma flow_start : forall h1 eps, h1 < L -> 0 < eps -> exists delta, 0 < delta /\
    forall h t, 0 <= h <= h1 -> 0 < t < delta -> Rabs (flow nu U L Hnu HL h t) < eps.
  Proof.
    intros h1 eps H1 He. pose proof PI_RGT_0 as HP. pose proof (Rabs_pos U) as HU.
    destruct (Rlt_dec h1 0) as [N|N]; [exists 1; split; [lra|]; intros h t Hh; lra|].
    assert (N1 : 0 <= h1) by lra. clear N.
    set (x1 := PI * (h1 / L)).
    assert (F1 : 0 <= h1 / L < 1).
    { split; [apply Rmult_le_pos; [exact N1|left; apply Rinv_0_lt_compat; exact HL]|].
      apply (Rmult_lt_reg_r L); [exact HL|]. unfold Rdiv. rewrite Rmult_assoc, Rinv_l by lra. lra. }
    assert (X1 : 0 <= x1 < PI).
    { unfold x1. split; [apply Rmult_le_pos; lra|].
      rewrite <- (Rmult_1_r PI) at 2. apply Rmult_lt_compat_l; lra. }
    set (K := rate_const x1). assert (HK : 0 < K) by (apply rate_const_pos; exact X1).
    set (e := eps / (Rabs U + 1)). assert (He1 : 0 < e) by (unfold e, Rdiv; apply Rmult_lt_0_compat; [exact He|apply Rinv_0_lt_compat; lra]).
    destruct (archimed_cor1 (e / (8 * K))) as (M & HM1 & HM2).
    { unfold Rdiv; apply Rmult_lt_0_compat; [exact He1|apply Rinv_0_lt_compat; lra]. }
    assert (IM : 0 < INR M) by (apply lt_0_INR; exact HM2).
    set (G := PI + 3 * K * INR M). assert (HG : 0 < G) by (unfold G; assert (0 < K * INR M) by (apply Rmult_lt_0_compat; lra); lra).
    set (r := nu * (PI / L) ^ 2). assert (Hr : 0 < r) by (apply Rmult_lt_0_compat; [exact Hnu|apply c2; exact HL]).
    exists (e / (4 * G) / r). split.
    { apply Rdiv_lt_0_compat; [apply Rdiv_lt_0_compat; lra|exact Hr]. }
    intros h t Hh Ht. set (s := r * t).
    assert (Hs : 0 < s) by (apply Rmult_lt_0_compat; [exact Hr|apply Ht]).
    assert (Hs2 : s < e / (4 * G)).
    { unfold s. rewrite Rmult_comm. apply (Rmult_lt_reg_r (/ r)); [apply Rinv_0_lt_compat; exact Hr|].
      rewrite Rmult_assoc, Rinv_r by lra. lra. }
    set (x := PI * (h / L)).
    assert (F : 0 <= h / L <= h1 / L).
    { split; [apply Rmult_le_pos; [lra|left; apply Rinv_0_lt_compat; exact HL]|].
      apply Rmult_le_compat_r; [left; apply Rinv_0_lt_compat; exact HL|lra]. }
    assert (X : 0 <= x <= x1) by (unfold x, x1; split; [apply Rmult_le_pos; lra|apply Rmult_le_compat_l; lra]).
    set (q := fun k => exp (- ((INR k + 1) ^ 2 * s))).
    assert (q_range : forall n, 0 <= q n <= 1).
    { intros n. unfold q. split; [left; apply exp_pos|].
      apply Rle_trans with (exp 0); [apply exp_mono|rewrite exp_0; lra].
      assert (0 <= (INR n + 1) ^ 2 * s) by (apply Rmult_le_pos; [apply pow2_ge_0|lra]). lra. }
    assert (q_step : forall n, 0 <= q n - q (S n) <= 3 * (INR n + 1) * s).
    { intros n. pose proof (pos_INR n) as Hn.
      assert (E : q (S n) = q n * exp (- ((2 * INR n + 3) * s))).
      { unfold q. rewrite <- exp_plus. f_equal. rewrite S_INR. ring. }
      assert (W : 0 <= (2 * INR n + 3) * s) by (apply Rmult_le_pos; lra).
      assert (D1 : exp (- ((2 * INR n + 3) * s)) <= 1) by (apply Rle_trans with (exp 0); [apply exp_mono; lra|rewrite exp_0; lra]).
      assert (D2 : 1 - (2 * INR n + 3) * s <= exp (- ((2 * INR n + 3) * s))).
      { destruct W as [W|W]; [|rewrite <- W, Ropp_0, exp_0; lra].
        pose proof (exp_ineq1 (- ((2 * INR n + 3) * s)) ltac:(lra)). lra. }
      pose proof (q_range n) as Q. rewrite E. split; [nra|].
      apply Rle_trans with ((2 * INR n + 3) * s); [nra|]. apply Rmult_le_compat_r; lra. }
    assert (key : forall n, (M <= n)%nat ->
      Rabs (sum_f_R0 (fun k => saw k x * q k) n - x / 2 * q O) <= 3 * K * s * INR M + 2 * (K / (INR M + 1))).
    { apply (damped (fun k => saw k x) q (x / 2) K s); [lra| |exact q_range|exact q_step].
      intros n. apply saws_rate; [exact X|apply X1]. }
    assert (term : forall k, T0 nu U L k h t = - (2 * U / PI) * (saw k x * q k)).
    { intros k. unfold T0, amp, saw, q, dec, s, r, x. pose proof (inr_pos k) as Ik. pose proof (S_INR k) as SI. rewrite <- SI.
      unfold lam.
      replace (nu * (INR (S k) * PI / L) ^ 2 * t) with (INR (S k) ^ 2 * (nu * (PI / L) ^ 2 * t)) by (unfold Rdiv; ring).
      replace (INR (S k) * PI / L * h) with (INR (S k) * (PI * (h / L))) by (unfold Rdiv; ring).
      simpl pow. field. lra. }
    assert (bound : Rabs (flow nu U L Hnu HL h t - 0) <= e / 2 * Rabs U).
    { apply (limit_bound (fun m => couette_series nu U L m h t) _ _ _ (S M) (flow_cv nu U L Hnu HL h t (proj1 Ht))).
      intros m Hm. destruct m as [|m]; [lia|]. rewrite series_sum.
      assert (E : sum_f_R0 (fun k => T0 nu U L k h t) m = - (2 * U / PI) * sum_f_R0 (fun k => saw k x * q k) m).
      { rewrite scal_sum. apply sum_eq. intros i _. rewrite term. ring. }
      rewrite E.
      replace (U * h / L + - (2 * U / PI) * sum_f_R0 (fun k => saw k x * q k) m - 0)
        with (- (2 / PI) * U * (sum_f_R0 (fun k => saw k x * q k) m - x / 2 * q O - x / 2 * (1 - q O)))
        by (unfold x; field; lra).
      specialize (key m ltac:(lia)). set (P := sum_f_R0 (fun k => saw k x * q k) m - x / 2 * q O) in *.
      rewrite !Rabs_mult, Rabs_Ropp, (Rabs_pos_eq (2 / PI)) by (unfold Rdiv; apply Rmult_le_pos; [lra|left; apply Rinv_0_lt_compat; lra]).
      assert (Q0 : 0 <= 1 - q O <= s).
      { pose proof (q_range O). split; [lra|]. unfold q. cbn [INR].
        replace (- ((0 + 1) ^ 2 * s)) with (- s) by ring.
        pose proof (exp_ineq1 (- s) ltac:(lra)). lra. }
      assert (T1 : Rabs (P - x / 2 * (1 - q O)) <= 3 * K * s * INR M + 2 * (K / (INR M + 1)) + PI * s).
      { unfold Rminus at 1. eapply Rle_trans; [apply Rabs_triang|]. rewrite Rabs_Ropp.
        apply Rplus_le_compat; [exact key|]. rewrite Rabs_pos_eq by (apply Rmult_le_pos; lra).
        apply Rmult_le_compat; lra. }
      assert (T2 : 3 * K * s * INR M + PI * s <= e / 4).
      { replace (3 * K * s * INR M + PI * s) with (s * G) by (unfold G; ring).
        apply Rle_trans with (e / (4 * G) * G); [apply Rmult_le_compat_r; lra|]. right. field. lra. }
      assert (T3 : 2 * (K / (INR M + 1)) <= e / 4).
      { apply Rle_trans with (2 * (K * (e / (8 * K)))); [|right; field; lra].
        apply Rmult_le_compat_l; [lra|]. apply Rmult_le_compat_l; [lra|].
        apply Rle_trans with (/ INR M); [apply Rinv_le_contravar; lra|lra]. }
      assert (T4 : Rabs (P - x / 2 * (1 - q O)) <= e / 2) by lra.
      assert (T5 : 0 <= 2 / PI <= 1).
      { pose proof PI2_3_2. split; [unfold Rdiv; apply Rmult_le_pos; [lra|left; apply Rinv_0_lt_compat; lra]|].
        apply (Rmult_le_reg_r PI); [lra|]. unfold Rdiv. rewrite Rmult_assoc, Rinv_l by lra. unfold PI2 in *. lra. }
      pose proof (Rabs_pos (P - x / 2 * (1 - q O))) as T6.
      apply Rle_trans with (1 * Rabs U * (e / 2)); [|lra].
      apply Rmult_le_compat; [apply Rmult_le_pos; lra|exact T6|apply Rmult_le_compat_r; lra|exact T4]. }
    rewrite Rminus_0_r in bound. eapply Rle_lt_trans; [exact bound|].
    apply Rlt_le_trans with (e * (Rabs U + 1)); [nra|]. unfold e. right. field. lra.
  Qed.
End Start.
