(** Labels and coefficients of the Fourier transform. *)
From Verif Require Import Prelude BigSum ModelFourier SpecFourier.
Local Open Scope R_scope.

Section Box.
  Variables N0 N1 N2 : nat.
  Hypotheses (H0 : (0 < N0)%nat) (H1 : (0 < N1)%nat) (H2 : (0 < N2)%nat).

  Lemma idx_low a b c : (c < N2)%nat -> (fftw_index N1 N2 a b c mod N2 = c)%nat.
  Proof. intros Hc. unfold fftw_index. rewrite Nat.add_comm, Nat.mod_add by lia. apply Nat.mod_small. exact Hc. Qed.
  Lemma idx_div a b c : (c < N2)%nat -> (fftw_index N1 N2 a b c / N2 = a * N1 + b)%nat.
  Proof. intros Hc. unfold fftw_index. rewrite Nat.div_add_l by lia. rewrite (Nat.div_small c N2) by exact Hc. lia. Qed.
  Lemma idx_mid a b c : (c < N2)%nat -> (b < N1)%nat -> ((fftw_index N1 N2 a b c / N2) mod N1 = b)%nat.
  Proof. intros Hc Hb. rewrite idx_div by exact Hc. rewrite Nat.add_comm, Nat.mod_add by lia. apply Nat.mod_small. exact Hb. Qed.
  Lemma idx_high a b c : (c < N2)%nat -> (b < N1)%nat -> (fftw_index N1 N2 a b c / N2 / N1 = a)%nat.
  Proof. intros Hc Hb. rewrite idx_div by exact Hc. rewrite Nat.div_add_l by lia. rewrite (Nat.div_small b N1) by exact Hb. lia. Qed.
  Lemma idx_high' a b c : (c < N2)%nat -> (b < N1)%nat -> (fftw_index N1 N2 a b c / (N1 * N2) = a)%nat.
  Proof. intros Hc Hb. rewrite (Nat.mul_comm N1 N2), <- Nat.div_div by lia. apply idx_high; assumption. Qed.
  Lemma idx_lt a b c : (a < N0)%nat -> (b < N1)%nat -> (c < N2)%nat -> (fftw_index N1 N2 a b c < N0 * N1 * N2)%nat.
  Proof.
    intros Ha Hb Hc. unfold fftw_index. assert (a * N1 + b < N0 * N1)%nat by nia. nia.
  Qed.
  Lemma idx_inv i : (i < N0 * N1 * N2)%nat -> fftw_index N1 N2 (i / N2 / N1) ((i / N2) mod N1) (i mod N2) = i.
  Proof.
    intros Hi. unfold fftw_index. rewrite (Nat.mul_comm (i / N2 / N1) N1), <- Nat.div_mod by lia.
    rewrite (Nat.mul_comm (i / N2) N2), <- Nat.div_mod by lia. reflexivity.
  Qed.

  (** Sum over the row-major array. *)
  Lemma sumf_split n m (g : nat -> R) : sumf (n * m) g = sumf n (fun a => sumf m (fun b => g (a * m + b)%nat)).
  Proof.
    induction n as [|n IH]; [reflexivity|]. cbn [sumf]. rewrite <- IH. replace (S n * m)%nat with (n * m + m)%nat by lia.
    clear. induction m as [|m IHm]; [rewrite Nat.mul_0_r; cbn; ring|].
    set (k := (n * S m)%nat). generalize k. clear. intros k. induction m as [|m IH].
    - rewrite Nat.add_1_r. cbn. rewrite Nat.add_0_r. ring.
    - replace (k + S (S m))%nat with (S (k + S m)) by lia. cbn [sumf]. cbn [sumf] in IH. rewrite IH. rewrite Rplus_assoc. reflexivity.
  Qed.

  Lemma box_total (g : nat -> R) : sumf (N0 * N1 * N2) g = box_sum N0 N1 N2 (fun a b c => g (fftw_index N1 N2 a b c)).
  Proof. unfold box_sum, fftw_index. rewrite sumf_split, sumf_split. reflexivity. Qed.

  Lemma box_ext g h : (forall a b c, (a < N0)%nat -> (b < N1)%nat -> (c < N2)%nat -> g a b c = h a b c) -> box_sum N0 N1 N2 g = box_sum N0 N1 N2 h.
  Proof.
    intros E. unfold box_sum. apply sumf_ext. intros a Ha. apply sumf_ext. intros b Hb. apply sumf_ext. intros c Hc. apply E; assumption.
  Qed.

  Lemma phase_wave kx ky kz a b c : (ky < N1)%nat -> (kz < N2)%nat -> (b < N1)%nat -> (c < N2)%nat ->
    fftw_phase N0 N1 N2 (fftw_index N1 N2 a b c) (fftw_index N1 N2 kx ky kz) = wave N0 N1 N2 kx ky kz a b c.
  Proof. intros. unfold fftw_phase, wave. rewrite !idx_high', !idx_mid, !idx_low by assumption. reflexivity. Qed.

  Lemma re_value input kx ky kz : (ky < N1)%nat -> (kz < N2)%nat ->
    fftw_re N0 N1 N2 (fun i => nth i input 0) (fftw_index N1 N2 kx ky kz) = coefficient_re N0 N1 N2 (field_of N1 N2 input) kx ky kz.
  Proof.
    intros Hy Hz. unfold fftw_re, coefficient_re. rewrite box_total. apply box_ext. intros a b c Ha Hb Hc. cbv beta.
    rewrite phase_wave by assumption. reflexivity.
  Qed.
  Lemma box_opp g : box_sum N0 N1 N2 (fun a b c => - g a b c) = - box_sum N0 N1 N2 g.
  Proof.
    unfold box_sum. rewrite <- sumf_opp. apply sumf_ext. intros a _. rewrite <- sumf_opp. apply sumf_ext. intros b _. rewrite <- sumf_opp. reflexivity.
  Qed.
  Lemma im_value input kx ky kz : (ky < N1)%nat -> (kz < N2)%nat ->
    fftw_im N0 N1 N2 (fun i => nth i input 0) (fftw_index N1 N2 kx ky kz) = coefficient_im N0 N1 N2 (field_of N1 N2 input) kx ky kz.
  Proof.
    intros Hy Hz. unfold fftw_im, coefficient_im. rewrite <- box_opp, box_total. apply box_ext. intros a b c Ha Hb Hc. cbv beta.
    rewrite phase_wave by assumption. reflexivity.
  Qed.

  Lemma main_ok dim input : usual_call dim N1 N2 -> (N0 * N1 * N2 <= length input)%nat ->
    exists ls, fft_main dim N0 N1 N2 input = Ok ls /\ length ls = (N0 * N1 * N2)%nat /\
      forall kx ky kz, (kx < N0)%nat -> (ky < N1)%nat -> (kz < N2)%nat ->
        forall l, In l ls -> label l = (kx, ky, kz) ->
          l = (kx, ky, kz, coefficient_re N0 N1 N2 (field_of N1 N2 input) kx ky kz, coefficient_im N0 N1 N2 (field_of N1 N2 input) kx ky kz).
  Proof.
    intros Hd Hl. unfold fft_main. unfold usual_call in Hd. replace (Nat.eqb dim 2 && negb (Nat.eqb N2 1))%bool with false by (destruct Hd as [->|[[-> ->]|(-> & -> & ->)]]; reflexivity).
    assert (T : Nat.ltb (match dim with 1 => N0 | 2 => N0 * N1 | 3 => N0 * N1 * N2 | _ => 0 end) (N0 * N1 * N2) = false).
    { apply Nat.ltb_ge. destruct Hd as [->|[[-> ->]|(-> & -> & ->)]]; [apply Nat.le_refl|rewrite Nat.mul_1_r; apply Nat.le_refl|rewrite !Nat.mul_1_r; apply Nat.le_refl]. }
    cbv zeta. rewrite T. replace (Nat.ltb (length input) (N0 * N1 * N2)) with false by (symmetry; apply Nat.ltb_ge; exact Hl).
    eexists. split; [reflexivity|]. split; [rewrite map_length, seq_length; reflexivity|].
    intros kx ky kz Hx Hy Hz l Hin Hlab. apply in_map_iff in Hin. destruct Hin as (i & <- & Hi). apply in_seq in Hi.
    cbn [label fst] in Hlab. injection Hlab as E1 E2 E3. rewrite E1, E2, E3. pose proof (idx_inv i ltac:(lia)) as Q. rewrite E1, E2, E3 in Q. rewrite <- Q.
    rewrite re_value, im_value by assumption. reflexivity.
  Qed.

  Lemma main_complete dim input ls kx ky kz : fft_main dim N0 N1 N2 input = Ok ls -> (kx < N0)%nat -> (ky < N1)%nat -> (kz < N2)%nat ->
    exists l, In l ls /\ label l = (kx, ky, kz).
  Proof.
    intros H Hx Hy Hz. unfold fft_main in H.
    destruct (Nat.eqb dim 2 && negb (Nat.eqb N2 1))%bool; [discriminate|]. cbv zeta in H.
    destruct (Nat.ltb _ (N0 * N1 * N2)); [discriminate|]. destruct (Nat.ltb (length input) (N0 * N1 * N2)); [discriminate|].
    injection H as <-. eexists. split; [apply in_map_iff; exists (fftw_index N1 N2 kx ky kz); split; [reflexivity|apply in_seq; split; [lia|apply idx_lt; assumption]]|].
    cbn [label fst]. rewrite idx_high, idx_mid, idx_low by assumption. reflexivity.
  Qed.

  (** Waves beyond half the number of points are the negative ones: conjugate coefficients of real fields. *)
  Lemma opposite_phase kx ky kz a b c : (kx <= N0)%nat -> (ky <= N1)%nat -> (kz <= N2)%nat ->
    wave N0 N1 N2 (N0 - kx) (N1 - ky) (N2 - kz) a b c = - wave N0 N1 N2 kx ky kz a b c + 2 * INR (a + b + c) * PI.
  Proof.
    intros Hx Hy Hz. unfold wave. rewrite !minus_INR by assumption. rewrite !plus_INR.
    assert (INR N0 <> 0) by (apply not_0_INR; lia). assert (INR N1 <> 0) by (apply not_0_INR; lia). assert (INR N2 <> 0) by (apply not_0_INR; lia).
    field. repeat split; assumption.
  Qed.

  Lemma conjugate f kx ky kz : (kx <= N0)%nat -> (ky <= N1)%nat -> (kz <= N2)%nat ->
    coefficient_re N0 N1 N2 f (N0 - kx) (N1 - ky) (N2 - kz) = coefficient_re N0 N1 N2 f kx ky kz /\
    coefficient_im N0 N1 N2 f (N0 - kx) (N1 - ky) (N2 - kz) = - coefficient_im N0 N1 N2 f kx ky kz.
  Proof.
    intros Hx Hy Hz. unfold coefficient_re, coefficient_im. split.
    - apply box_ext. intros a b c _ _ _. rewrite opposite_phase by assumption. rewrite cos_period, cos_neg. reflexivity.
    - apply (f_equal Ropp). rewrite <- box_opp. apply box_ext. intros a b c _ _ _. rewrite opposite_phase by assumption. rewrite sin_period, sin_neg. ring.
  Qed.
End Box.

(** Constant fields have one coefficient only. *)
Lemma shifted_sum n k : (0 < n)%nat -> (k < n)%nat -> k <> 0%nat ->
  sumf n (fun a => cos (2 * PI * (INR a * INR k / INR n))) = 0 /\ sumf n (fun a => sin (2 * PI * (INR a * INR k / INR n))) = 0.
Proof.
  intros Hn Hk Hk0. set (t := 2 * PI * (INR k / INR n)). assert (Hn' : 0 < INR n) by (apply lt_0_INR; exact Hn).
  assert (E : forall a, 2 * PI * (INR a * INR k / INR n) = INR a * t) by (intros a; unfold t; field; lra).
  assert (S : sin (t / 2) <> 0).
  { replace (t / 2) with (PI * (INR k / INR n)) by (unfold t; field; lra). pose proof PI_RGT_0.
    assert (0 < INR k) by (apply lt_0_INR; lia). assert (INR k < INR n) by (apply lt_INR; exact Hk).
    assert (0 < INR k / INR n) by (apply Rdiv_lt_0_compat; assumption).
    assert (INR k / INR n < 1). { apply Rmult_lt_reg_r with (INR n); [exact Hn'|]. unfold Rdiv. rewrite Rmult_assoc, Rinv_l by lra. lra. }
    apply Rgt_not_eq, sin_gt_0; nra. }
  assert (C : forall m, 2 * sin (t / 2) * sumf m (fun a => cos (INR a * t)) = sin (INR m * t - t / 2) + sin (t / 2)).
  { induction m as [|m IH]; [cbn; rewrite Rmult_0_l, Rminus_0_l, sin_neg; ring|]. cbn [sumf]. rewrite Rmult_plus_distr_l, IH, S_INR.
    replace ((INR m + 1) * t - t / 2) with (INR m * t + t / 2) by field. rewrite sin_plus, sin_minus. ring. }
  assert (D : forall m, 2 * sin (t / 2) * sumf m (fun a => sin (INR a * t)) = cos (t / 2) - cos (INR m * t - t / 2)).
  { induction m as [|m IH]; [cbn; rewrite Rmult_0_l, Rminus_0_l, cos_neg; ring|]. cbn [sumf]. rewrite Rmult_plus_distr_l, IH, S_INR.
    replace ((INR m + 1) * t - t / 2) with (INR m * t + t / 2) by field. rewrite cos_plus, cos_minus. ring. }
  assert (P : INR n * t = 2 * INR k * PI) by (unfold t; field; lra).
  specialize (C n). specialize (D n). rewrite P in C, D.
  replace (2 * INR k * PI - t / 2) with (- (t / 2) + 2 * INR k * PI) in C, D by ring. rewrite sin_period, sin_neg in C. rewrite cos_period, cos_neg in D.
  split.
  - rewrite (sumf_ext n _ (fun a => cos (INR a * t))) by (intros a _; rewrite E; reflexivity).
    assert (Q : sin (t / 2) * sumf n (fun a => cos (INR a * t)) = 0) by lra. destruct (Rmult_integral _ _ Q); [contradiction|assumption].
  - rewrite (sumf_ext n _ (fun a => sin (INR a * t))) by (intros a _; rewrite E; reflexivity).
    assert (Q : sin (t / 2) * sumf n (fun a => sin (INR a * t)) = 0) by lra. destruct (Rmult_integral _ _ Q); [contradiction|assumption].
Qed.

(** Waves are orthogonal. *)
Lemma ortho n a a' : (0 < n)%nat -> (a < n)%nat -> (a' < n)%nat -> a <> a' ->
  sumf n (fun k => cos (2 * PI * ((INR a - INR a') * INR k / INR n))) = 0 /\ sumf n (fun k => sin (2 * PI * ((INR a - INR a') * INR k / INR n))) = 0.
Proof.
  intros Hn Ha Ha' Hd. assert (INR n <> 0) by (apply not_0_INR; lia).
  destruct (Nat.lt_total a a') as [L|[L|L]]; [|lia|].
  - destruct (shifted_sum n (a' - a) Hn ltac:(lia) ltac:(lia)) as [C S]. rewrite minus_INR in C, S by lia. split.
    + rewrite <- C. apply sumf_ext. intros k _. rewrite <- cos_neg. f_equal. field. assumption.
    + rewrite <- (Ropp_involutive 0), Ropp_0, <- S, <- sumf_opp. apply sumf_ext. intros k _. rewrite <- sin_neg. f_equal. field. assumption.
  - destruct (shifted_sum n (a - a') Hn ltac:(lia) ltac:(lia)) as [C S]. rewrite minus_INR in C, S by lia. split.
    + rewrite <- C. apply sumf_ext. intros k _. f_equal. field. assumption.
    + rewrite <- S. apply sumf_ext. intros k _. f_equal. field. assumption.
Qed.
Lemma ortho_shift n a a' t : (0 < n)%nat -> (a < n)%nat -> (a' < n)%nat -> a <> a' ->
  sumf n (fun k => cos (2 * PI * ((INR a - INR a') * INR k / INR n) + t)) = 0.
Proof.
  intros Hn Ha Ha' Hd. destruct (ortho n a a' Hn Ha Ha' Hd) as [C S].
  rewrite (sumf_ext n _ (fun k => cos (2 * PI * ((INR a - INR a') * INR k / INR n)) * cos t - sin (2 * PI * ((INR a - INR a') * INR k / INR n)) * sin t)) by (intros k _; apply cos_plus).
  rewrite sumf_minus, !sumf_scal_r, C, S. ring.
Qed.

Lemma box_swap N0 N1 N2 M0 M1 M2 (g : nat -> nat -> nat -> nat -> nat -> nat -> R) :
  box_sum N0 N1 N2 (fun a b c => box_sum M0 M1 M2 (fun x y z => g a b c x y z)) = box_sum M0 M1 M2 (fun x y z => box_sum N0 N1 N2 (fun a b c => g a b c x y z)).
Proof.
  unfold box_sum.
  transitivity (sumf N0 (fun a => sumf N1 (fun b => sumf M0 (fun x => sumf M1 (fun y => sumf M2 (fun z => sumf N2 (fun c => g a b c x y z))))))).
  { apply sumf_ext; intros a _. apply sumf_ext; intros b _. rewrite sumf_swap. apply sumf_ext; intros x _. rewrite sumf_swap. apply sumf_ext; intros y _. rewrite sumf_swap. reflexivity. }
  transitivity (sumf N0 (fun a => sumf M0 (fun x => sumf M1 (fun y => sumf M2 (fun z => sumf N1 (fun b => sumf N2 (fun c => g a b c x y z))))))).
  { apply sumf_ext; intros a _. rewrite sumf_swap. apply sumf_ext; intros x _. rewrite sumf_swap. apply sumf_ext; intros y _. rewrite sumf_swap. reflexivity. }
  rewrite sumf_swap. apply sumf_ext; intros x _. rewrite sumf_swap. apply sumf_ext; intros y _. rewrite sumf_swap. reflexivity.
Qed.

Definition hit (a b c a' b' c' : nat) : R := delta a a' * (delta b b' * delta c c').

Section Back.
  Variables N0 N1 N2 : nat.
  Hypotheses (H0 : (0 < N0)%nat) (H1 : (0 < N1)%nat) (H2 : (0 < N2)%nat).

  Lemma wave_sum a b c a' b' c' : (a < N0)%nat -> (b < N1)%nat -> (c < N2)%nat -> (a' < N0)%nat -> (b' < N1)%nat -> (c' < N2)%nat ->
    box_sum N0 N1 N2 (fun kx ky kz => cos (wave N0 N1 N2 kx ky kz a' b' c' - wave N0 N1 N2 kx ky kz a b c)) = INR (N0 * N1 * N2) * hit a b c a' b' c'.
  Proof.
    intros Ha Hb Hc Ha' Hb' Hc'. assert (INR N0 <> 0) by (apply not_0_INR; lia). assert (INR N1 <> 0) by (apply not_0_INR; lia). assert (INR N2 <> 0) by (apply not_0_INR; lia).
    unfold hit, delta.
    destruct (Nat.eqb_spec c c') as [Ec|Nc].
    2:{ rewrite !Rmult_0_r. unfold box_sum. apply sumf_zero. intros kx _. apply sumf_zero. intros ky _.
      rewrite <- (ortho_shift N2 c' c (2 * PI * ((INR a' - INR a) * INR kx / INR N0 + (INR b' - INR b) * INR ky / INR N1)) H2 Hc' Hc (not_eq_sym Nc)).
      apply sumf_ext. intros kz _. f_equal. unfold wave. field. auto. }
    destruct (Nat.eqb_spec b b') as [Eb|Nb].
    2:{ rewrite Rmult_0_l, !Rmult_0_r. unfold box_sum. apply sumf_zero. intros kx _. rewrite sumf_swap. apply sumf_zero. intros kz _.
      rewrite <- (ortho_shift N1 b' b (2 * PI * ((INR a' - INR a) * INR kx / INR N0 + (INR c' - INR c) * INR kz / INR N2)) H1 Hb' Hb (not_eq_sym Nb)).
      apply sumf_ext. intros ky _. f_equal. unfold wave. field. auto. }
    destruct (Nat.eqb_spec a a') as [Ea|Na].
    2:{ rewrite Rmult_0_l, !Rmult_0_r. unfold box_sum. rewrite sumf_swap. apply sumf_zero. intros ky _. rewrite sumf_swap. apply sumf_zero. intros kz _.
      rewrite <- (ortho_shift N0 a' a (2 * PI * ((INR b' - INR b) * INR ky / INR N1 + (INR c' - INR c) * INR kz / INR N2)) H0 Ha' Ha (not_eq_sym Na)).
      apply sumf_ext. intros kx _. f_equal. unfold wave. field. auto. }
    subst a' b' c'. unfold box_sum.
    rewrite (sumf_ext N0 _ (fun _ => INR N1 * INR N2)).
    - rewrite sumf_const, !mult_INR. ring.
    - intros kx _. rewrite (sumf_ext N1 _ (fun _ => INR N2)); [apply sumf_const|]. intros ky _.
      rewrite (sumf_ext N2 _ (fun _ => 1)); [rewrite sumf_const; ring|]. intros kz _. rewrite Rminus_diag_eq by reflexivity. apply cos_0.
  Qed.

  Lemma box_delta f a b c : (a < N0)%nat -> (b < N1)%nat -> (c < N2)%nat -> box_sum N0 N1 N2 (fun a' b' c' => hit a b c a' b' c' * f a' b' c') = f a b c.
  Proof.
    intros Ha Hb Hc. unfold box_sum, hit.
    rewrite <- (sumf_delta N0 a (fun a' => f a' b c) Ha). apply sumf_ext. intros a' _.
    rewrite <- (sumf_delta N1 b (fun b' => f a' b' c) Hb), <- sumf_scal. apply sumf_ext. intros b' _.
    rewrite <- (sumf_delta N2 c (fun c' => f a' b' c') Hc), <- !sumf_scal. apply sumf_ext. intros c' _. ring.
  Qed.

  Lemma box_scal k g : box_sum N0 N1 N2 (fun a b c => k * g a b c) = k * box_sum N0 N1 N2 g.
  Proof. unfold box_sum. rewrite <- sumf_scal. apply sumf_ext. intros a _. rewrite <- sumf_scal. apply sumf_ext. intros b _. rewrite <- sumf_scal. reflexivity. Qed.
  Lemma box_plus g h : box_sum N0 N1 N2 (fun a b c => g a b c + h a b c) = box_sum N0 N1 N2 g + box_sum N0 N1 N2 h.
  Proof. unfold box_sum. rewrite <- sumf_plus. apply sumf_ext. intros a _. rewrite <- sumf_plus. apply sumf_ext. intros b _. rewrite <- sumf_plus. reflexivity. Qed.

  Lemma back_works f a b c : (a < N0)%nat -> (b < N1)%nat -> (c < N2)%nat ->
    back_transform N0 N1 N2 (coefficient_re N0 N1 N2 f) (coefficient_im N0 N1 N2 f) a b c = f a b c.
  Proof.
    intros Ha Hb Hc. unfold back_transform.
    assert (HN : INR (N0 * N1 * N2) <> 0) by (apply not_0_INR; nia).
    transitivity (box_sum N0 N1 N2 (fun kx ky kz => box_sum N0 N1 N2 (fun a' b' c' => cos (wave N0 N1 N2 kx ky kz a' b' c' - wave N0 N1 N2 kx ky kz a b c) * f a' b' c')) / INR (N0 * N1 * N2)).
    { f_equal. apply box_ext. intros kx ky kz _ _ _. unfold coefficient_re, coefficient_im.
      match goal with |- ?X * ?c0 - - ?Y * ?s0 = _ => replace (X * c0 - - Y * s0) with (c0 * X + s0 * Y) by ring end.
      rewrite <- !box_scal, <- box_plus. apply box_ext. intros a' b' c' _ _ _. rewrite cos_minus. ring. }
    rewrite box_swap.
    transitivity (box_sum N0 N1 N2 (fun a' b' c' => INR (N0 * N1 * N2) * (hit a b c a' b' c' * f a' b' c')) / INR (N0 * N1 * N2)).
    { f_equal. apply box_ext. intros a' b' c' Ha' Hb' Hc'.
      transitivity (f a' b' c' * box_sum N0 N1 N2 (fun kx ky kz => cos (wave N0 N1 N2 kx ky kz a' b' c' - wave N0 N1 N2 kx ky kz a b c))).
      - rewrite <- box_scal. apply box_ext. intros kx ky kz _ _ _. ring.
      - rewrite wave_sum by assumption. ring. }
    rewrite box_scal, box_delta by assumption. field. exact HN.
  Qed.
End Back.

(** Undefined output. *)
Lemma short_ub dim N0 N1 N2 input : (dim <> 2%nat \/ N2 = 1%nat) -> (length input < N0 * N1 * N2)%nat -> fft_main dim N0 N1 N2 input = UB.
Proof.
  intros Hd Hl. unfold fft_main. replace (Nat.eqb dim 2 && negb (Nat.eqb N2 1))%bool with false.
  - cbv zeta. destruct (Nat.ltb _ (N0 * N1 * N2)); [reflexivity|]. apply Nat.ltb_lt in Hl. rewrite Hl. reflexivity.
  - destruct Hd as [Hd| ->]; [apply Nat.eqb_neq in Hd; rewrite Hd; reflexivity|rewrite Bool.andb_false_r; reflexivity].
Qed.
Lemma line_ub N0 N1 N2 input : (0 < N0)%nat -> (1 < N1 * N2)%nat -> fft_main 1 N0 N1 N2 input = UB.
Proof. intros H0 H. unfold fft_main. cbn [Nat.eqb andb]. cbv zeta. replace (Nat.ltb N0 (N0 * N1 * N2)) with true; [reflexivity|]. symmetry. apply Nat.ltb_lt. nia. Qed.
