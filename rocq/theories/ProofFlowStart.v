(** Initial fields of decaying turbulence and the mixing layer. *)
From Verif Require Import Prelude ModelFlowStart SpecBenchmarks ProofDeriv ProofBenchGrid.
Local Open Scope R_scope.

Lemma waves_divergence : forall ds,
  divergence_free2 (fun x y _ => waves ds x y 0) (fun x y _ => waves ds x y 1).
Proof.
  induction ds as [|[n m] ds IH].
  - exists (fun _ _ _ => 0), (fun _ _ _ => 0). unfold d1, d2. cbn [waves].
    split; [|split]; intros; try apply dl_const. ring.
  - destruct IH as (ux & vy & U & V & Z).
    set (p := stream_amplitude n m).
    set (c := fun x y : R => cos (2 * PI * n * x + 2 * PI * m * y)).
    exists (fun x y t => - p * 2 * PI * m * (c x y * (2 * PI * n)) + ux x y t),
           (fun x y t => p * 2 * PI * n * (c x y * (2 * PI * m)) + vy x y t).
    unfold d1, d2 in *. cbn [waves]. cbv zeta. fold p.
    split; [|split].
    + intros a b t. apply dl_plus; [|apply (U a b t)]. unfold c. clearbody p. deriv. ring.
    + intros a b t. apply dl_plus; [|apply (V a b t)]. unfold c. clearbody p. deriv. ring.
    + intros x y t. pose proof (Z x y t). lra.
Qed.

(** A generator that gives one wave and then waves without amplitude. *)
Lemma amplitude_0 : stream_amplitude 0 0 = 0.
Proof. unfold stream_amplitude. cbv zeta. replace (0 * 0 + 0 * 0) with 0 by ring. rewrite sqrt_0. unfold Rdiv. ring. Qed.
Lemma amplitude_pos : forall n m, 0 < n * n + m * m -> 0 < stream_amplitude n m.
Proof.
  intros n m H. unfold stream_amplitude. cbv zeta. set (k := sqrt (n * n + m * m)).
  assert (K : 0 < k) by (apply sqrt_lt_R0; exact H). clearbody k.
  assert (P : 0 < (k / 4) ^ 18) by (apply pow_lt; lra).
  apply Rdiv_lt_0_compat; [|nra]. apply Rdiv_lt_0_compat; [|lra].
  apply Rmult_lt_0_compat; [lra|apply pow_lt; exact K].
Qed.
Lemma waves_repeat : forall ds x y i, waves (ds ++ [(0,0)]) x y i = waves ds x y i.
Proof.
  induction ds as [|[n m] ds IH]; intros x y i.
  - cbn [waves app]. cbv zeta. rewrite amplitude_0. destruct i; ring.
  - cbn [waves app]. cbv zeta. rewrite IH. reflexivity.
Qed.
Lemma waves_zero : forall ds, (forall d, In d ds -> d = (0, 0)) -> forall x y i, waves ds x y i = 0.
Proof.
  induction ds as [|d ds IH]; intros H x y i; [reflexivity|].
  rewrite (H d (or_introl eq_refl)). cbn [waves]. cbv zeta. rewrite amplitude_0.
  rewrite IH by (intros e E; apply H; right; exact E). destruct i; ring.
Qed.

(** The generator whose first wave is (n, m), the rest still. *)
Definition once (n m : R) (i : nat) : R * R := match i with O => (n, m) | _ => (0, 0) end.
Lemma once_first : forall n m x y i, fst (sample (once n m) 0 x y i) = waves [(n, m)] x y i.
Proof.
  intros n m x y i. unfold sample. cbn [fst]. change (100 * 0)%nat with 0%nat.
  change (seq 0 100) with (0%nat :: seq 1 99). cbn [map once]. cbn [waves]. cbv zeta.
  rewrite (waves_zero (map (once n m) (seq 1 99))); [reflexivity|].
  intros d D. apply in_map_iff in D. destruct D as (j & <- & J). apply in_seq in J. destruct j; [lia|reflexivity].
Qed.
Lemma once_later : forall n m p x y i, fst (sample (once n m) (S p) x y i) = 0.
Proof.
  intros n m p x y i. unfold sample. cbn [fst]. apply waves_zero.
  intros d D. apply in_map_iff in D. destruct D as (j & <- & J). apply in_seq in J. destruct j; [lia|reflexivity].
Qed.

Lemma one_wave : forall n m x y, waves [(n, m)] x y 0 = - (stream_amplitude n m * (2 * PI) * m * sin (2 * PI * n * x + 2 * PI * m * y)).
Proof. intros. cbn [waves]. cbv zeta. ring. Qed.

Lemma not_periodic : fst (sample (once (1/4) 1) 0 1 0 0) <> fst (sample (once (1/4) 1) 0 0 0 0).
Proof.
  rewrite !once_first, !one_wave.
  replace (2 * PI * (1/4) * 1 + 2 * PI * 1 * 0) with (PI / 2) by field.
  replace (2 * PI * (1/4) * 0 + 2 * PI * 1 * 0) with 0 by ring. rewrite sin_PI2, sin_0.
  pose proof (amplitude_pos (1/4) 1 ltac:(lra)) as A. pose proof PI_RGT_0 as P.
  assert (0 < stream_amplitude (1/4) 1 * (2 * PI)) by (apply Rmult_lt_0_compat; lra). lra.
Qed.
Lemma not_a_function : fst (sample (once (1/4) 1) 0 1 0 0) <> fst (sample (once (1/4) 1) 1 1 0 0).
Proof.
  rewrite once_later. rewrite once_first, one_wave.
  replace (2 * PI * (1/4) * 1 + 2 * PI * 1 * 0) with (PI / 2) by field. rewrite sin_PI2.
  pose proof (amplitude_pos (1/4) 1 ltac:(lra)) as A. pose proof PI_RGT_0 as P.
  assert (0 < stream_amplitude (1/4) 1 * (2 * PI)) by (apply Rmult_lt_0_compat; lra). lra.
Qed.
(** Sampling anew at every point: the components at a point belong to different fields. *)
Lemma not_incompressible : exists gen, ~ divergence_free2 (fun x y _ => fst (fst (sample_point gen 0 x y)))
                                                          (fun x y _ => snd (fst (sample_point gen 0 x y))).
Proof.
  exists (once 1 1). intros (ux & vy & U & V & Z).
  specialize (U 0 0 0). specialize (V 0 0 0). specialize (Z 0 0 0).
  set (A := stream_amplitude 1 1). assert (HA : 0 < A) by (apply amplitude_pos; lra).
  assert (U1 : derivable_pt_lim (fun s => fst (fst (sample_point (once 1 1) 0 s 0))) 0 (- (A * (2 * PI) * 1 * (1 * (2 * PI))))).
  { apply (dl_ext (fun s => - (A * (2 * PI) * 1 * sin (2 * PI * 1 * s + 2 * PI * 1 * 0)))).
    - intros s. unfold sample_point. cbv zeta. cbn [fst]. rewrite once_first, one_wave. reflexivity.
    - clearbody A. deriv. replace (2 * PI * 1 * 0 + 2 * PI * 1 * 0) with 0 by ring. rewrite cos_0. ring. }
  assert (V1 : derivable_pt_lim (fun s => snd (fst (sample_point (once 1 1) 0 0 s))) 0 0).
  { apply (dl_ext (fun _ => 0)); [|apply dl_const].
    intros s. unfold sample_point. cbv zeta. cbn [fst snd]. symmetry. apply (once_later 1 1 0). }
  pose proof (uniqueness_limite _ _ _ _ U U1) as E1. pose proof (uniqueness_limite _ _ _ _ V V1) as E2.
  rewrite E1, E2 in Z. pose proof PI_RGT_0 as P.
  assert (0 < A * (2 * PI) * (2 * PI)) by (apply Rmult_lt_0_compat; [apply Rmult_lt_0_compat|]; lra). lra.
Qed.

(** ** Mixing layer *)
Lemma mixing_odd : forall y u, mixing_velocity y 0 = Ok u -> mixing_velocity (- y) 0 = Ok (- u).
Proof.
  intros y u H. cbn [mixing_velocity] in *. assert (E : u = tanh (- y / (2 * 1))) by congruence. subst u.
  replace (- - y / (2 * 1)) with (- (- y / (2 * 1))) by field. rewrite tanh_odd. reflexivity.
Qed.
Lemma mixing_jump : forall p v, In (p, v) mixing_walls -> exists u, mixing_velocity p 0 = Ok u /\ u <> v /\ Rabs (u - v) <= 2/5.
Proof.
  intros p v H. pose proof atan_1 as At. pose proof PI2_3_2 as P3.
  assert (T : 3/5 <= tanh (PI / 2) < 1).
  { split; [|apply tanh_lt_1]. rewrite tanh_exp.
    assert (exp (2 * (PI / 2)) >= 4).
    { pose proof (exp_ineq1 1 ltac:(lra)). 
      assert (exp 2 <= exp (2 * (PI / 2))). { left. apply exp_increasing. lra. }
      assert (exp 2 = exp 1 * exp 1) by (rewrite <- exp_plus; f_equal; ring). nra. }
    assert (2 / (exp (2 * (PI / 2)) + 1) <= 2/5).
    { apply Rmult_le_reg_r with (exp (2 * (PI / 2)) + 1); [lra|]. unfold Rdiv at 1. rewrite Rmult_assoc, Rinv_l by lra. lra. }
    lra. }
  destruct H as [H|[H|[]]]; injection H as <- <-; eexists; (split; [reflexivity|]); rewrite At.
  - replace (- - (4 * (PI / 4)) / (2 * 1)) with (PI / 2) by field.
    split; [lra|]. apply Rabs_le; lra.
  - replace (- (4 * (PI / 4)) / (2 * 1)) with (- (PI / 2)) by field. rewrite tanh_odd.
    split; [lra|]. apply Rabs_le; lra.
Qed.
