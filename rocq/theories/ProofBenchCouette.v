(** The analytic solution of the Couette flow. *)
From Coq Require Import FunctionalExtensionality.
From Verif Require Import Prelude ModelBenchmarks SpecBenchmarks ProofDeriv ProofSeries.
Local Open Scope R_scope.

Section Series.
  Variables (nu U L : R).
  Hypotheses (Hnu : 0 < nu) (HL : 0 < L).
  Definition lam (k : nat) : R := INR (S k) * PI / L.
  Definition amp (k : nat) : R := 2 * U / (INR (S k) * PI) * (-1) ^ (S k).
  Definition dec (k : nat) (t : R) : R := exp (- (nu * lam k ^ 2 * t)).
  Definition T0 (k : nat) (h t : R) : R := amp k * dec k t * sin (lam k * h).
  Definition T1 (k : nat) (h t : R) : R := amp k * lam k * dec k t * cos (lam k * h).
  Definition T2 (k : nat) (h t : R) : R := - (amp k * lam k ^ 2 * dec k t * sin (lam k * h)).
  Definition Tt (k : nat) (h t : R) : R := nu * T2 k h t.

  Lemma series_sum : forall n h t, couette_series nu U L (S n) h t = U * h / L + sum_f_R0 (fun k => T0 k h t) n.
  Proof.
    intros n h t. induction n as [|n IH].
    - cbn [couette_series sum_f_R0]. unfold T0, amp, dec, lam. ring.
    - change (couette_series nu U L (S (S n)) h t) with
        (couette_series nu U L (S n) h t + 2 * U / (INR (S (S n)) * PI) * (-1) ^ (S (S n)) *
         exp (- (nu * (INR (S (S n)) * PI / L) ^ 2 * t)) * sin (INR (S (S n)) * PI / L * h)).
      rewrite IH, tech5. unfold T0, amp, dec, lam. ring.
  Qed.

  Lemma dT0h : forall k h t, derivable_pt_lim (fun s => T0 k s t) h (T1 k h t).
  Proof. intros. unfold T0, T1. deriv. ring. Qed.
  Lemma dT1h : forall k h t, derivable_pt_lim (fun s => T1 k s t) h (T2 k h t).
  Proof. intros. unfold T1, T2. deriv. ring. Qed.
  Lemma dT0t : forall k h t, derivable_pt_lim (fun s => T0 k h s) t (Tt k h t).
  Proof. intros. unfold T0, Tt, T2, dec. deriv. ring. Qed.
  Lemma cT1h : forall k h t, continuity_pt (fun s => T1 k s t) h.
  Proof. intros. apply derivable_continuous_pt. exists (T2 k h t). apply dT1h. Qed.
  Lemma cT2h : forall k h t, continuity_pt (fun s => T2 k s t) h.
  Proof.
    intros. apply derivable_continuous_pt. exists (- (amp k * lam k ^ 2 * dec k t * (cos (lam k * h) * lam k))).
    unfold T2. deriv. ring.
  Qed.
  Lemma cTth : forall k h t, continuity_pt (fun s => Tt k h s) t.
  Proof.
    intros. apply derivable_continuous_pt. exists (nu * (nu * (amp k * lam k ^ 4 * dec k t * sin (lam k * h)))).
    unfold Tt, T2, dec. deriv. ring.
  Qed.

  Definition rate (t : R) : R := exp (- (nu * (PI / L) ^ 2 * t)).
  Lemma rate_lt : forall t, 0 < t -> 0 <= rate t < 1.
  Proof.
    intros t Ht. unfold rate. split; [left; apply exp_pos|].
    rewrite <- exp_0. apply exp_increasing.
    assert (0 < nu * (PI / L) ^ 2 * t).
    { apply Rmult_lt_0_compat; [apply Rmult_lt_0_compat; [exact Hnu|]|exact Ht].
      apply pow_lt. unfold Rdiv. apply Rmult_lt_0_compat; [apply PI_RGT_0|apply Rinv_0_lt_compat; exact HL]. }
    lra.
  Qed.
  Lemma exp_pow : forall x n, exp x ^ n = exp (INR n * x).
  Proof.
    intros x n. induction n as [|n IH]; [simpl; rewrite Rmult_0_l, exp_0; reflexivity|].
    rewrite S_INR. simpl pow. rewrite IH, <- exp_plus. f_equal. ring.
  Qed.
  Lemma exp_mono : forall x y, x <= y -> exp x <= exp y.
  Proof. intros x y H; destruct H as [H|H]; [left; apply exp_increasing; exact H|right; f_equal; exact H]. Qed.
  Lemma c2 : 0 < (PI / L) ^ 2.
  Proof. apply pow_lt. unfold Rdiv. apply Rmult_lt_0_compat; [apply PI_RGT_0|apply Rinv_0_lt_compat; exact HL]. Qed.
  Lemma dec_le : forall k tau t, 0 < tau -> tau <= t -> dec k t <= rate tau ^ k.
  Proof.
    intros k tau t H0 H1. unfold dec, rate. rewrite exp_pow. apply exp_mono.
    unfold lam. rewrite S_INR. pose proof (pos_INR k) as HK. pose proof c2 as HC.
    set (c := (PI / L) ^ 2) in *.
    replace ((INR k + 1) * PI / L) with ((INR k + 1) * (PI / L)) by (unfold Rdiv; ring).
    rewrite Rpow_mult_distr. fold c.
    assert (A : INR k * (nu * c * tau) <= (INR k + 1) ^ 2 * (nu * c * t)).
    { apply Rmult_le_compat.
      - exact HK.
      - left. apply Rmult_lt_0_compat; [apply Rmult_lt_0_compat; [exact Hnu|exact HC]|exact H0].
      - simpl. nra.
      - apply Rmult_le_compat_l; [left; apply Rmult_lt_0_compat; [exact Hnu|exact HC]|exact H1]. }
    lra.
  Qed.
  Lemma dec_pos : forall k t, 0 < dec k t. Proof. intros; apply exp_pos. Qed.
  Lemma pow1_abs : forall n, Rabs ((-1) ^ n) = 1.
  Proof. intros n. rewrite <- RPow_abs. replace (Rabs (-1)) with 1 by (rewrite Rabs_left; lra). apply pow1. Qed.
  Lemma inr_pos : forall k, 0 < INR (S k). Proof. intros; apply lt_0_INR; lia. Qed.
  Lemma amp_abs : forall k, Rabs (amp k) = 2 * Rabs U / (INR (S k) * PI).
  Proof.
    intros k. unfold amp. rewrite Rabs_mult, pow1_abs, Rmult_1_r. unfold Rdiv.
    rewrite !Rabs_mult, Rabs_inv. rewrite (Rabs_pos_eq (INR (S k) * PI)).
    - rewrite (Rabs_pos_eq 2) by lra. reflexivity.
    - left. apply Rmult_lt_0_compat; [apply inr_pos|apply PI_RGT_0].
  Qed.
  Lemma lam_pos : forall k, 0 < lam k.
  Proof.
    intros k. unfold lam, Rdiv. apply Rmult_lt_0_compat; [apply Rmult_lt_0_compat; [apply inr_pos|apply PI_RGT_0]|].
    apply Rinv_0_lt_compat; exact HL.
  Qed.
  Lemma sin_abs : forall x, Rabs (sin x) <= 1.
  Proof. intros. apply Rabs_le. pose proof (SIN_bound x). lra. Qed.
  Lemma cos_abs : forall x, Rabs (cos x) <= 1.
  Proof. intros. apply Rabs_le. pose proof (COS_bound x). lra. Qed.

  (** |amp k| lam^j <= C (k+1) *)
  Lemma dom_general : forall (T : nat -> R -> R -> R) (C : R), 0 <= C ->
    (forall k h t, Rabs (T k h t) <= C * (INR k + 1) * dec k t) -> dominated T.
  Proof.
    intros T C HC B tau Ht. exists C, (rate tau). split; [exact HC|split; [apply rate_lt; exact Ht|]].
    intros k h t H. eapply Rle_trans; [apply B|]. rewrite Rmult_assoc. apply Rmult_le_compat_l; [exact HC|].
    apply Rmult_le_compat_l; [pose proof (pos_INR k); lra|]. apply dec_le; assumption.
  Qed.

  Lemma dom0 : dominated T0.
  Proof.
    apply (dom_general T0 (2 * Rabs U / PI)).
    - unfold Rdiv. apply Rmult_le_pos; [pose proof (Rabs_pos U); lra|left; apply Rinv_0_lt_compat, PI_RGT_0].
    - intros k h t. unfold T0. rewrite !Rabs_mult, amp_abs, (Rabs_pos_eq (dec k t)) by (left; apply dec_pos).
      pose proof (dec_pos k t) as HD. pose proof (sin_abs (lam k * h)) as HS. pose proof (inr_pos k) as HK.
      pose proof (Rabs_pos U) as HU. pose proof PI_RGT_0 as HP.
      replace (2 * Rabs U / (INR (S k) * PI) * dec k t * Rabs (sin (lam k * h)))
        with (2 * Rabs U / PI * dec k t * (/ INR (S k) * Rabs (sin (lam k * h)))) by (field; lra).
      replace (2 * Rabs U / PI * (INR k + 1) * dec k t) with (2 * Rabs U / PI * dec k t * (INR k + 1)) by ring.
      apply Rmult_le_compat_l.
      + apply Rmult_le_pos; [|lra]. unfold Rdiv. apply Rmult_le_pos; [lra|left; apply Rinv_0_lt_compat, PI_RGT_0].
      + rewrite S_INR in *. apply Rle_trans with (1 * 1); [|lra ||(pose proof (pos_INR k); lra)].
        apply Rmult_le_compat; [left; apply Rinv_0_lt_compat; exact HK|apply Rabs_pos| |exact HS].
        rewrite <- Rinv_1. apply Rinv_le_contravar; [lra|pose proof (pos_INR k); lra].
  Qed.
  Lemma dom1 : dominated T1.
  Proof.
    apply (dom_general T1 (2 * Rabs U / L)).
    - unfold Rdiv. apply Rmult_le_pos; [pose proof (Rabs_pos U); lra|left; apply Rinv_0_lt_compat, HL].
    - intros k h t. unfold T1. rewrite !Rabs_mult, amp_abs, (Rabs_pos_eq (dec k t)) by (left; apply dec_pos).
      rewrite (Rabs_pos_eq (lam k)) by (left; apply lam_pos).
      pose proof (dec_pos k t) as HD. pose proof (cos_abs (lam k * h)) as HS. pose proof (inr_pos k) as HK.
      pose proof (Rabs_pos U) as HU. pose proof PI_RGT_0 as HP. unfold lam at 1.
      replace (2 * Rabs U / (INR (S k) * PI) * (INR (S k) * PI / L) * dec k t * Rabs (cos (lam k * h)))
        with (2 * Rabs U / L * dec k t * Rabs (cos (lam k * h))) by (field; lra).
      replace (2 * Rabs U / L * (INR k + 1) * dec k t) with (2 * Rabs U / L * dec k t * (INR k + 1)) by ring.
      apply Rmult_le_compat_l.
      + apply Rmult_le_pos; [|lra]. unfold Rdiv. apply Rmult_le_pos; [lra|left; apply Rinv_0_lt_compat, HL].
      + pose proof (pos_INR k). lra.
  Qed.
  Lemma dom2 : dominated T2.
  Proof.
    apply (dom_general T2 (2 * Rabs U * PI / L ^ 2)).
    - unfold Rdiv. pose proof PI_RGT_0. pose proof (Rabs_pos U).
      apply Rmult_le_pos; [apply Rmult_le_pos; lra|left; apply Rinv_0_lt_compat, pow_lt, HL].
    - intros k h t. unfold T2. rewrite Rabs_Ropp, !Rabs_mult, amp_abs, (Rabs_pos_eq (dec k t)) by (left; apply dec_pos).
      rewrite (Rabs_pos_eq (lam k ^ 2)) by (left; apply pow_lt, lam_pos).
      pose proof (dec_pos k t) as HD. pose proof (sin_abs (lam k * h)) as HS. pose proof (inr_pos k) as HK.
      pose proof (Rabs_pos U) as HU. pose proof PI_RGT_0 as HP. unfold lam at 1.
      replace (2 * Rabs U / (INR (S k) * PI) * (INR (S k) * PI / L) ^ 2 * dec k t * Rabs (sin (lam k * h)))
        with (2 * Rabs U * PI / L ^ 2 * dec k t * INR (S k) * Rabs (sin (lam k * h))) by (field; lra).
      rewrite S_INR in *.
      replace (2 * Rabs U * PI / L ^ 2 * (INR k + 1) * dec k t) with (2 * Rabs U * PI / L ^ 2 * dec k t * (INR k + 1) * 1) by ring.
      apply Rmult_le_compat_l; [|exact HS].
      apply Rmult_le_pos; [|lra]. apply Rmult_le_pos; [|lra]. unfold Rdiv.
      apply Rmult_le_pos; [apply Rmult_le_pos; lra|left; apply Rinv_0_lt_compat, pow_lt, HL].
  Qed.
  Lemma domt : dominated Tt.
  Proof.
    intros tau Ht. destruct (dom2 tau Ht) as (C & q & HC & Hq & B). exists (nu * C), q.
    split; [apply Rmult_le_pos; lra|split; [exact Hq|]].
    intros k h t H. unfold Tt. rewrite Rabs_mult, (Rabs_pos_eq nu) by lra. rewrite Rmult_assoc.
    apply Rmult_le_compat_l; [lra|apply B; exact H].
  Qed.

  (** The flow: the sum of the whole series. *)
  Definition flow (h t : R) : R := U * h / L + total T0 dom0 h t.

  Lemma flow_cv : forall h t, 0 < t -> Un_cv (fun n => couette_series nu U L n h t) (flow h t).
  Proof.
    intros h t Ht eps He. destruct (total_cv T0 dom0 h t Ht eps He) as [N HN].
    exists (S N). intros n Hn. destruct n as [|n]; [lia|]. rewrite series_sum. unfold flow.
    specialize (HN n ltac:(lia)). unfold R_dist in *.
    replace (U * h / L + sum_f_R0 (fun k => T0 k h t) n - (U * h / L + total T0 dom0 h t))
      with (sum_f_R0 (fun k => T0 k h t) n - total T0 dom0 h t) by ring. exact HN.
  Qed.

  Lemma total_scale : forall h t, 0 < t -> total Tt domt h t = nu * total T2 dom2 h t.
  Proof.
    intros h t Ht. apply (UL_sequence (fun n => sum_f_R0 (fun k => Tt k h t) n)); [apply total_cv; exact Ht|].
    assert (E : (fun n => sum_f_R0 (fun k => Tt k h t) n) = (fun n => nu * sum_f_R0 (fun k => T2 k h t) n)).
    { apply functional_extensionality. intros n. rewrite scal_sum. apply sum_eq. intros; unfold Tt; ring. }
    rewrite E. apply (CV_mult (fun _ => nu)); [|apply total_cv; exact Ht].
    intros e He. exists O. intros. unfold R_dist. rewrite Rminus_eq_0, Rabs_R0. exact He.
  Qed.

  Lemma flow_diffusion : diffusion nu flow.
  Proof.
    exists (fun h t => U / L + total T1 dom1 h t), (fun h t => total T2 dom2 h t), (fun h t => total Tt domt h t).
    intros h t Ht. unfold flow. repeat split.
    - eapply dl_eq.
      + apply (dl_plus (fun s => U * s / L) (fun s => total T0 dom0 s t)); [dl|].
        apply (total_dh T0 T1 dom0 dom1); [apply dT0h|apply cT1h|exact Ht].
      + cbv beta. unfold Rdiv. ring.
    - eapply dl_eq.
      + apply (dl_plus (fun s => U / L) (fun s => total T1 dom1 s t)); [dl|].
        apply (total_dh T1 T2 dom1 dom2); [apply dT1h|apply cT2h|exact Ht].
      + ring.
    - eapply dl_eq.
      + apply (dl_plus (fun s => U * h / L) (fun s => total T0 dom0 h s)); [dl|].
        apply (total_dt T0 Tt dom0 domt); [apply dT0t|apply cTth|exact Ht].
      + ring.
    - apply total_scale; exact Ht.
  Qed.

  Lemma sin_nPI : forall n, sin (INR n * PI) = 0.
  Proof.
    intros n. induction n as [|n IH]; [simpl; rewrite Rmult_0_l; apply sin_0|].
    rewrite S_INR. replace ((INR n + 1) * PI) with (INR n * PI + PI) by ring. rewrite neg_sin, IH. ring.
  Qed.

  Lemma series_bottom : forall n t, couette_series nu U L n 0 t = 0.
  Proof.
    intros n t. induction n as [|n IH]; [simpl; unfold Rdiv; ring|].
    cbn [couette_series]. rewrite IH, Rmult_0_r, sin_0. ring.
  Qed.
  Lemma series_top : forall n t, couette_series nu U L n L t = U.
  Proof.
    intros n t. induction n as [|n IH]; [simpl; field; lra|].
    cbn [couette_series]. rewrite IH. replace (INR (S n) * PI / L * L) with (INR (S n) * PI) by (field; lra).
    rewrite sin_nPI. ring.
  Qed.
  Lemma const_cv : forall c, Un_cv (fun _ : nat => c) c.
  Proof. intros c e He. exists O. intros. unfold R_dist. rewrite Rminus_eq_0, Rabs_R0. exact He. Qed.
  Lemma flow_bottom : forall t, 0 < t -> flow 0 t = 0.
  Proof.
    intros t Ht. apply (UL_sequence (fun n => couette_series nu U L n 0 t)); [apply flow_cv; exact Ht|].
    replace (fun n => couette_series nu U L n 0 t) with (fun _ : nat => 0); [apply const_cv|].
    apply functional_extensionality. intros n. symmetry. apply series_bottom.
  Qed.
  Lemma flow_top : forall t, 0 < t -> flow L t = U.
  Proof.
    intros t Ht. apply (UL_sequence (fun n => couette_series nu U L n L t)); [apply flow_cv; exact Ht|].
    replace (fun n => couette_series nu U L n L t) with (fun _ : nat => U); [apply const_cv|].
    apply functional_extensionality. intros n. symmetry. apply series_top.
  Qed.

  (** ** The remainder after a term that has decayed *)
  Lemma dec_step : forall n j t, 0 < t -> dec (n + S j) t <= dec n t * rate t ^ S j.
  Proof.
    intros n j t Ht. unfold dec, rate. rewrite exp_pow, <- exp_plus. apply exp_mono.
    unfold lam. set (c := PI / L).
    replace (INR (S (n + S j)) * PI / L) with (INR (S (n + S j)) * c) by (unfold c, Rdiv; ring).
    replace (INR (S n) * PI / L) with (INR (S n) * c) by (unfold c, Rdiv; ring).
    rewrite !Rpow_mult_distr. rewrite !S_INR, plus_INR, S_INR.
    pose proof (pos_INR n). pose proof (pos_INR j).
    assert (P : 0 < nu * c ^ 2 * t) by (apply Rmult_lt_0_compat; [apply Rmult_lt_0_compat; [exact Hnu|apply c2]|exact Ht]).
    assert (Q : ((INR n + 1) ^ 2 + (INR j + 1)) * (nu * c ^ 2 * t) <= (INR n + (INR j + 1) + 1) ^ 2 * (nu * c ^ 2 * t)).
    { apply Rmult_le_compat_r; [lra|]. simpl. nra. }
    lra.
  Qed.
  Lemma T0_abs : forall k h t, Rabs (T0 k h t) <= 2 * Rabs U / PI * (/ INR (S k)) * dec k t.
  Proof.
    intros k h t. unfold T0. rewrite !Rabs_mult, amp_abs, (Rabs_pos_eq (dec k t)) by (left; apply dec_pos).
    pose proof (dec_pos k t). pose proof (inr_pos k). pose proof PI_RGT_0. pose proof (Rabs_pos U).
    replace (2 * Rabs U / (INR (S k) * PI)) with (2 * Rabs U / PI * / INR (S k)) by (field; lra).
    rewrite <- (Rmult_1_r (2 * Rabs U / PI * / INR (S k) * dec k t)) at 2.
    apply Rmult_le_compat_l; [|apply sin_abs].
    unfold Rdiv. repeat apply Rmult_le_pos; try lra; left; apply Rinv_0_lt_compat; lra.
  Qed.
  Lemma geom_sum : forall q m, 0 <= q < 1 -> sum_f_R0 (fun j => q ^ S j) m <= / (1 - q).
  Proof.
    intros q m H.
    assert (E : (1 - q) * sum_f_R0 (fun j => q ^ S j) m = q - q ^ S (S m)).
    { induction m as [|m IH]; [simpl; ring|]. rewrite tech5, Rmult_plus_distr_l, IH. simpl. ring. }
    apply (Rmult_le_reg_l (1 - q)); [lra|]. rewrite E, Rinv_r by lra.
    assert (0 <= q ^ S (S m)) by (apply pow_le; lra). lra.
  Qed.

  (** Remainder after the term with index [n] (counted from 0). *)
  Lemma remainder : forall n h t, 0 < t -> dec n t <= / 3 ->
    Rabs (flow h t - couette_series nu U L (S n) h t) <= Rabs U * (INR n + 2) * dec n t.
  Proof.
    intros n h t Ht Hd. pose proof (rate_lt t Ht) as Hq.
    pose proof PI_RGT_0 as HP. pose proof PI2_3_2 as HP2. pose proof (Rabs_pos U) as HU. pose proof (dec_pos n t) as HD.
    pose proof (pos_INR n) as Hn.
    set (B := 2 * Rabs U / PI * / INR (S n) * dec n t).
    assert (HB : 0 <= B).
    { unfold B, Rdiv. pose proof (inr_pos n). repeat apply Rmult_le_pos; try lra; left; apply Rinv_0_lt_compat; lra. }
    assert (gap : forall m, Rabs (sum_f_R0 (fun k => T0 k h t) (S (n + m)) - sum_f_R0 (fun k => T0 k h t) n)
                            <= B * sum_f_R0 (fun j => rate t ^ S j) m).
    { assert (one : forall j, Rabs (T0 (n + S j) h t) <= B * rate t ^ S j).
      { intros j. eapply Rle_trans; [apply T0_abs|]. unfold B.
        rewrite Rmult_assoc, (Rmult_assoc (2 * Rabs U / PI)), (Rmult_assoc (2 * Rabs U / PI)).
        apply Rmult_le_compat_l; [unfold Rdiv; apply Rmult_le_pos; [lra|left; apply Rinv_0_lt_compat; lra]|].
        rewrite Rmult_assoc. apply Rmult_le_compat.
        - left; apply Rinv_0_lt_compat, inr_pos.
        - left; apply dec_pos.
        - apply Rinv_le_contravar; [apply inr_pos|apply le_INR; lia].
        - apply dec_step; exact Ht. }
      induction m as [|m IH].
      - rewrite Nat.add_0_r, tech5. cbn [sum_f_R0].
        replace (sum_f_R0 (fun k => T0 k h t) n + T0 (S n) h t - sum_f_R0 (fun k => T0 k h t) n) with (T0 (S n) h t) by ring.
        specialize (one O). replace (n + 1)%nat with (S n) in one by lia. exact one.
      - rewrite (tech5 (fun j => rate t ^ S j)), Rmult_plus_distr_l.
        replace (n + S m)%nat with (S (n + m)) by lia. rewrite (tech5 _ (S (n + m))).
        replace (sum_f_R0 (fun k => T0 k h t) (S (n + m)) + T0 (S (S (n + m))) h t - sum_f_R0 (fun k => T0 k h t) n)
          with ((sum_f_R0 (fun k => T0 k h t) (S (n + m)) - sum_f_R0 (fun k => T0 k h t) n) + T0 (S (S (n + m))) h t) by ring.
        eapply Rle_trans; [apply Rabs_triang|]. apply Rplus_le_compat; [exact IH|].
        specialize (one (S m)). replace (n + S (S m))%nat with (S (S (n + m))) in one by lia. exact one. }
    assert (lim : Rabs (flow h t - couette_series nu U L (S n) h t) <= B * / (1 - rate t)).
    { apply (limit_bound (fun m => couette_series nu U L m h t) _ _ _ (S (S n)) (flow_cv h t Ht)).
      intros m Hm. destruct m as [|m]; [lia|]. rewrite !series_sum.
      replace (U * h / L + sum_f_R0 (fun k => T0 k h t) m - (U * h / L + sum_f_R0 (fun k => T0 k h t) n))
        with (sum_f_R0 (fun k => T0 k h t) m - sum_f_R0 (fun k => T0 k h t) n) by ring.
      replace m with (S (n + (m - S n)))%nat by lia.
      eapply Rle_trans; [apply gap|]. apply Rmult_le_compat_l; [exact HB|apply geom_sum; exact Hq]. }
    eapply Rle_trans; [exact lim|].
    (* 1 / (1 - rate) <= 1 + (n+1)^2 *)
    assert (R1 : / (1 - rate t) <= 1 + (INR n + 1) ^ 2).
    { set (s := nu * (PI / L) ^ 2 * t).
      assert (Hs : 0 < s) by (unfold s; apply Rmult_lt_0_compat; [apply Rmult_lt_0_compat; [exact Hnu|apply c2]|exact Ht]).
      assert (Ha : 1 <= (INR n + 1) ^ 2 * s).
      { destruct (Rle_lt_dec 1 ((INR n + 1) ^ 2 * s)) as [|F]; [assumption|exfalso].
        assert (exp (-1) < dec n t).
        { unfold dec. apply exp_increasing. unfold lam. rewrite S_INR.
          replace (nu * ((INR n + 1) * PI / L) ^ 2 * t) with ((INR n + 1) ^ 2 * s) by (unfold s, Rdiv; ring). lra. }
        assert (/ 3 <= exp (-1)).
        { replace (-1) with (- (1)) by ring. rewrite exp_Ropp. apply Rinv_le_contravar; [apply exp_pos|apply exp_le_3]. }
        lra. }
      assert (E : rate t <= / (1 + s)).
      { unfold rate. fold s. rewrite exp_Ropp. apply Rinv_le_contravar; [lra|]. left. apply exp_ineq1. lra. }
      assert (G : s / (1 + s) <= 1 - rate t) by (replace (s / (1 + s)) with (1 - / (1 + s)) by (field; lra); lra).
      assert (G0 : 0 < s / (1 + s)) by (unfold Rdiv; apply Rmult_lt_0_compat; [exact Hs|apply Rinv_0_lt_compat; lra]).
      eapply Rle_trans; [apply Rinv_le_contravar; [exact G0|exact G]|].
      replace (/ (s / (1 + s))) with (1 + / s) by (field; lra).
      apply Rplus_le_compat_l. apply (Rmult_le_reg_r s); [exact Hs|]. rewrite Rinv_l by lra. exact Ha. }
    eapply Rle_trans; [apply Rmult_le_compat_l; [exact HB|exact R1]|].
    unfold B. rewrite S_INR.
    replace (2 * Rabs U / PI * / (INR n + 1) * dec n t * (1 + (INR n + 1) ^ 2))
      with (Rabs U * dec n t * (2 / PI * ((1 + (INR n + 1) ^ 2) * / (INR n + 1)))) by (field; lra).
    replace (Rabs U * (INR n + 2) * dec n t) with (Rabs U * dec n t * (INR n + 2)) by ring.
    apply Rmult_le_compat_l; [apply Rmult_le_pos; lra|].
    rewrite <- (Rmult_1_l (INR n + 2)). apply Rmult_le_compat.
    - unfold Rdiv. apply Rmult_le_pos; [lra|left; apply Rinv_0_lt_compat; lra].
    - apply Rmult_le_pos; [|left; apply Rinv_0_lt_compat; lra]. pose proof (pow2_ge_0 (INR n + 1)). lra.
    - apply (Rmult_le_reg_r PI); [lra|]. replace (2 / PI * PI) with 2 by (field; lra). lra.
    - apply (Rmult_le_reg_r (INR n + 1)); [lra|].
      replace ((1 + (INR n + 1) ^ 2) * / (INR n + 1) * (INR n + 1)) with (1 + (INR n + 1) ^ 2) by (field; lra).
      simpl. nra.
  Qed.
End Series.

(** ** The loop of the code *)
Lemma parity : forall i, (if Nat.eqb (i mod 2) 0 then 1 else -1) = (-1) ^ i.
Proof.
  intros i. destruct (Nat.Even_or_Odd i) as [[k ->]|[k ->]].
  - rewrite Nat.mul_comm, Nat.mod_mul by lia. cbn [Nat.eqb]. rewrite Nat.mul_comm, pow_1_even. reflexivity.
  - rewrite Nat.add_comm, (Nat.mul_comm 2), Nat.mod_add by lia. cbn [Nat.modulo Nat.divmod Nat.eqb fst snd Nat.sub].
    rewrite Nat.add_comm, Nat.mul_comm, Nat.add_1_r, pow_1_odd. reflexivity.
Qed.

Section Loop.
  Variables (f : couette) (h t : R).
  Hypothesis HL : 0 < co_L f.

  Lemma exp_dec : forall k, couette_exp f (S k) t = dec (co_nu f) (co_L f) k t.
  Proof. intros k. unfold couette_exp, couette_lambda, dec, lam. f_equal. ring. Qed.

  Lemma increment_series : forall k, couette_series (co_nu f) (co_U f) (co_L f) (S k) h t =
    couette_series (co_nu f) (co_U f) (co_L f) k h t + couette_increment f (S k) h t.
  Proof.
    intros k. cbn [couette_series]. f_equal. unfold couette_increment. rewrite parity, exp_dec.
    unfold couette_lambda, dec, lam.
    replace (INR (S k) * PI / co_L f * co_L f) with (INR (S k) * PI) by (field; lra).
    unfold Rdiv. ring.
  Qed.

  Lemma loop_result : forall left k, exists n, (n <= k + left)%nat /\
    couette_loop f h t left (S k) (couette_series (co_nu f) (co_U f) (co_L f) k h t)
      = couette_series (co_nu f) (co_U f) (co_L f) n h t /\
    (n = (k + left)%nat \/ exists m, n = S m /\ dec (co_nu f) (co_L f) m t < / 10 ^ 20).
  Proof.
    intros left. induction left as [|left IH]; intros k.
    - exists k. cbn [couette_loop]. split; [lia|split; [reflexivity|left; lia]].
    - cbn [couette_loop]. rewrite <- increment_series. rewrite exp_dec.
      destruct (Rlt_dec (dec (co_nu f) (co_L f) k t) (/ 10 ^ 20)) as [D|D].
      + exists (S k). split; [lia|split; [reflexivity|right; exists k; split; [reflexivity|exact D]]].
      + destruct (IH (S k)) as (n & A & B & C). exists n. split; [lia|split; [exact B|]].
        destruct C as [->|C]; [left; lia|right; exact C].
  Qed.
End Loop.

Lemma terms_eq : INR couette_terms = 10 ^ 4.
Proof. unfold couette_terms. rewrite mult_INR. simpl. ring. Qed.
Lemma terms_S : exists m, couette_terms = S m /\ INR m = 10 ^ 4 - 1.
Proof.
  exists (couette_terms - 1)%nat.
  assert (1 <= couette_terms)%nat.
  { apply INR_le. rewrite terms_eq. simpl. lra. }
  split; [lia|]. rewrite minus_INR by assumption. rewrite terms_eq. simpl. lra.
Qed.

Lemma exp_large : 10 ^ 20 < exp 90.
Proof.
  assert (E : exp 90 = exp 1 ^ 90).
  { rewrite exp_pow. f_equal. rewrite INR_IZR_INZ. cbn. lra. }
  rewrite E. apply Rlt_le_trans with (2 ^ 90).
  - lra.
  - apply pow_incr. split; [lra|]. pose proof (exp_ineq1 1 ltac:(lra)). lra.
Qed.

(** The last term of the loop has decayed. *)
Lemma last_decayed : forall f t m, 0 < co_nu f -> 0 < co_L f -> co_L f * co_L f <= 10 ^ 7 * co_nu f * t ->
  couette_terms = S m -> dec (co_nu f) (co_L f) m t < / 10 ^ 20.
Proof.
  intros f t m Hnu HL HF E. unfold dec, lam. rewrite <- E, terms_eq.
  rewrite exp_Ropp. apply Rinv_lt_contravar; [apply Rmult_lt_0_compat; [lra|apply exp_pos]|].
  eapply Rlt_le_trans; [exact exp_large|]. apply exp_mono.
  replace (co_nu f * (10 ^ 4 * PI / co_L f) ^ 2 * t) with (PI * PI * 10 * ((10 ^ 7 * co_nu f * t) / (co_L f * co_L f)))
    by (field; lra).
  assert (P : 3 <= PI) by (pose proof PI2_3_2; lra).
  assert (Q : 1 <= (10 ^ 7 * co_nu f * t) / (co_L f * co_L f)).
  { assert (0 < co_L f * co_L f) by (apply Rmult_lt_0_compat; assumption).
    apply (Rmult_le_reg_r (co_L f * co_L f)); [assumption|].
    replace ((10 ^ 7 * co_nu f * t) / (co_L f * co_L f) * (co_L f * co_L f)) with (10 ^ 7 * co_nu f * t) by (field; lra).
    lra. }
  assert (9 <= PI * PI) by nra. nra.
Qed.

Lemma profile_series : forall f h time, 0 < co_L f -> 1 / 100000 <= time + co_t0 f ->
  exists n, (n <= couette_terms)%nat /\
    couette_profile f h time = couette_series (co_nu f) (co_U f) (co_L f) n h (time + co_t0 f) /\
    (n = couette_terms \/ exists m, n = S m /\ dec (co_nu f) (co_L f) m (time + co_t0 f) < / 10 ^ 20).
Proof.
  intros f h time HL Ht. unfold couette_profile. cbv zeta.
  destruct (Rlt_dec (time + co_t0 f) (1 / 100000)) as [D|_]; [lra|].
  destruct (loop_result f h (time + co_t0 f) HL couette_terms 0) as (n & A & B & C).
  exists n. cbn [couette_series] in B. rewrite Nat.add_0_l in *. auto.
Qed.

Lemma profile_bottom : forall f time, 1 / 100000 < co_L f -> couette_profile f 0 time = 0.
Proof.
  intros f time HL. destruct (Rlt_dec (time + co_t0 f) (1 / 100000)) as [D|D].
  - unfold couette_profile. cbv zeta. destruct (Rlt_dec (time + co_t0 f) (1 / 100000)); [|lra].
    destruct (Rlt_dec 0 (co_L f - 1 / 100000)); lra.
  - destruct (profile_series f 0 time ltac:(lra) ltac:(lra)) as (n & _ & -> & _). apply series_bottom.
Qed.
Lemma profile_top : forall f time, 0 < co_L f -> couette_profile f (co_L f) time = co_U f.
Proof.
  intros f time HL. destruct (Rlt_dec (time + co_t0 f) (1 / 100000)) as [D|D].
  - unfold couette_profile. cbv zeta. destruct (Rlt_dec (time + co_t0 f) (1 / 100000)); [|lra].
    destruct (Rlt_dec (co_L f) (co_L f - 1 / 100000)); lra.
  - destruct (profile_series f (co_L f) time ltac:(lra) ltac:(lra)) as (n & _ & -> & _). apply series_top. exact HL.
Qed.

(** The code is within 10^-15 |U| of the flow. *)
Lemma profile_close : forall f (Hnu : 0 < co_nu f) (HL : 0 < co_L f) h time,
  1 / 100000 <= time + co_t0 f -> co_L f * co_L f <= 10 ^ 7 * co_nu f * (time + co_t0 f) ->
  Rabs (couette_profile f h time - flow (co_nu f) (co_U f) (co_L f) Hnu HL h (time + co_t0 f)) <= Rabs (co_U f) / 10 ^ 15.
Proof.
  intros f Hnu HL h time Ht HF.
  assert (T : 0 < time + co_t0 f) by lra.
  destruct (profile_series f h time HL Ht) as (n & A & E & C).
  assert (M : exists m, n = S m /\ dec (co_nu f) (co_L f) m (time + co_t0 f) < / 10 ^ 20).
  { destruct C as [->|C]; [|exact C]. destruct terms_S as (m & Em & _). exists m.
    split; [exact Em|apply last_decayed; assumption]. }
  destruct M as (m & -> & D). rewrite E, Rabs_minus_sym.
  assert (D3 : dec (co_nu f) (co_L f) m (time + co_t0 f) <= / 3) by (apply Rlt_le, (Rlt_le_trans _ _ _ D); apply Rinv_le_contravar; lra).
  eapply Rle_trans; [apply remainder; [exact T|exact D3]|].
  assert (I : INR m + 1 <= 10 ^ 4) by (rewrite <- S_INR, <- terms_eq; apply le_INR; exact A).
  pose proof (Rabs_pos (co_U f)). pose proof (pos_INR m). pose proof (dec_pos (co_nu f) (co_L f) m (time + co_t0 f)).
  unfold Rdiv. rewrite Rmult_assoc. apply Rmult_le_compat_l; [assumption|].
  apply Rle_trans with ((10 ^ 4 + 1) * / 10 ^ 20).
  - apply Rmult_le_compat; lra.
  - lra.
Qed.
