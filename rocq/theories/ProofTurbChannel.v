(** The turbulent channel: force, mesh, initial fields, synthetic turbulence. *)
From Verif Require Import Prelude ModelTurbChannel SpecTurbChannel SpecBenchmarks ProofDeriv ProofBenchGrid ProofRandf.
Local Open Scope R_scope.

(** ** Force *)
Lemma balanced_wall : forall F h tau, 0 < h -> balanced F h tau -> tau 0 = F * h / 2.
Proof.
  intros F h tau H (D & S).
  assert (E : tau h - tau 0 = - F * (h - 0)).
  { destruct (MVT_cor2 tau (fun _ => - F) 0 h H) as (c & E & _).
    - intros c C. apply D. exact C.
    - exact E. }
  lra.
Qed.
Lemma force_reynolds : forall c F tau, ch_periodic c = true -> 0 < ch_height c -> 0 < ch_visc c -> 0 <= ch_retau c ->
  body_force c = Some F -> balanced F (ch_height c) tau ->
  friction_reynolds (ch_visc c) (ch_height c / 2) (tau 0) = ch_retau c.
Proof.
  intros c F tau P H V RT B T. unfold body_force in B. rewrite P in B.
  assert (EF : F = (ch_retau c * ch_visc c / (ch_height c / 2)) ^ 2 * 1 / (ch_height c / 2)) by congruence. subst F. clear B.
  apply balanced_wall in T; [|exact H]. rewrite T. unfold friction_reynolds.
  replace ((ch_retau c * ch_visc c / (ch_height c / 2)) ^ 2 * 1 / (ch_height c / 2) * ch_height c / 2)
    with (Rsqr (ch_retau c * ch_visc c / (ch_height c / 2))) by (unfold Rsqr; field; lra).
  rewrite sqrt_Rsqr.
  - field. lra.
  - apply Rle_mult_inv_pos; [|lra]. apply Rmult_le_pos; lra.
Qed.

(** ** Mesh *)
Lemma trans_derivative : forall h g y, derivable_pt_lim (trans h g) y (h * (1 - g * cos (2 * PI * y))).
Proof.
  intros h g y. unfold trans. pose proof PI_RGT_0 as P. deriv.
  replace (2 * y * PI) with (2 * PI * y) by ring. field. lra.
Qed.
Lemma trans_order : forall h g, 0 < h -> Rabs g <= 1 -> keeps_order 0 1 0 h (trans h g).
Proof.
  intros h g H G. pose proof PI_RGT_0 as P. split; [|split].
  - unfold trans. replace (2 * 0 * PI) with 0 by ring. rewrite sin_0. field. lra.
  - unfold trans. replace (2 * 1 * PI) with (2 * PI) by ring. rewrite sin_2PI. field. lra.
  - intros x y X XY Y. unfold trans.
    assert (B : Rabs (g * (sin (2 * y * PI) - sin (2 * x * PI))) < 2 * PI * (y - x)).
    { rewrite Rabs_mult. rewrite form4.
      replace ((2 * y * PI - 2 * x * PI) / 2) with (PI * (y - x)) by field.
      set (co := cos _). assert (CB : Rabs co <= 1) by (unfold co; apply Rabs_le; destruct (COS_bound ((2 * y * PI + 2 * x * PI) / 2)); lra).
      clearbody co.
      assert (SB : Rabs (sin (PI * (y - x))) < PI * (y - x)).
      { assert (Z : 0 < PI * (y - x)) by (apply Rmult_lt_0_compat; lra).
        assert (L : PI * (y - x) <= PI) by nra.
        rewrite Rabs_right; [apply sin_lt_x; exact Z|]. apply Rle_ge, sin_ge_0; lra. }
      replace (Rabs (2 * co * sin (PI * (y - x)))) with (2 * (Rabs co * Rabs (sin (PI * (y - x))))).
      2:{ rewrite !Rabs_mult. rewrite (Rabs_right 2) by lra. ring. }
      pose proof (Rabs_pos co). pose proof (Rabs_pos g). pose proof (Rabs_pos (sin (PI * (y - x)))) as SP.
      set (t := Rabs (sin (PI * (y - x)))) in *. clearbody t.
      assert (Rabs co * t <= t) by nra. assert (0 <= Rabs co * t) by nra.
      assert (Rabs g * (2 * (Rabs co * t)) <= 2 * (Rabs co * t)) by nra.
      lra. }
    apply Rabs_def2 in B. destruct B as (B1 & B2).
    apply Rmult_lt_compat_r; [exact H|].
    assert (Q : 0 < 2 * PI) by lra.
    apply (Rmult_lt_reg_r (2 * PI)); [exact Q|].
    replace ((- g * sin (2 * x * PI) / (2 * PI) + x) * (2 * PI)) with (- g * sin (2 * x * PI) + 2 * PI * x) by (field; lra).
    replace ((- g * sin (2 * y * PI) / (2 * PI) + y) * (2 * PI)) with (- g * sin (2 * y * PI) + 2 * PI * y) by (field; lra).
    lra.
Qed.
Lemma trans_mirror : forall h g y, trans h g (1 - y) = h - trans h g y.
Proof.
  intros h g y. unfold trans. replace (2 * (1 - y) * PI) with (- (2 * y * PI) + 2 * INR 1 * PI) by (cbn [INR]; ring).
  rewrite sin_period, sin_neg. pose proof PI_RGT_0. field. lra.
Qed.
Lemma trans_0 : forall h g, trans h g 0 = 0.
Proof. intros h g. unfold trans. replace (2 * 0 * PI) with 0 by ring. rewrite sin_0. pose proof PI_RGT_0. field. lra. Qed.
Lemma trans_tangled : forall h g, 0 < h -> 1 < g -> exists y, 0 < y < 1 /\ trans h g y < 0.
Proof.
  intros h g H G. pose proof (trans_derivative h g 0) as D.
  rewrite Rmult_0_r, cos_0, Rmult_1_r in D.
  assert (N : 0 < h * (g - 1)) by (apply Rmult_lt_0_compat; lra).
  destruct (D (h * (g - 1)) N) as (d & B). pose proof (cond_pos d) as Dp.
  set (y := Rmin (d / 2) (1/2)).
  assert (Y : 0 < y /\ y <= d / 2 /\ y <= 1/2).
  { unfold y. split; [apply Rmin_glb_lt; lra|]. split; [apply Rmin_l|apply Rmin_r]. }
  exists y. split; [lra|].
  assert (Q := B y ltac:(lra) ltac:(rewrite Rabs_right; lra)).
  rewrite Rplus_0_l, trans_0, Rminus_0_r in Q. apply Rabs_def2 in Q. destruct Q as (Q & _).
  assert (Q2 : trans h g y / y < 0) by lra.
  replace (trans h g y) with (trans h g y / y * y) by (field; lra). nra.
Qed.

(** ** Initial fields *)
Lemma u_plus_mirror : forall c y, u_plus c (ch_charlen c - y) = u_plus c y.
Proof.
  intros c y. unfold u_plus. cbv zeta. replace (ch_charlen c - (ch_charlen c - y)) with y by ring.
  rewrite Rmin_comm. reflexivity.
Qed.
Lemma mean_wall : forall c, 0 < ch_charlen c -> mean_u c 0 = 0.
Proof.
  intros c H. unfold mean_u, u_plus. cbv zeta. rewrite Rmin_left by lra.
  replace (ch_retau c * (0 / (ch_charlen c / 2))) with 0 by (field; lra).
  destruct (Rle_dec 0 5) as [_|N]; [ring|lra].
Qed.
Lemma mean_centre : forall c, 0 < ch_charlen c -> 30 <= ch_retau c -> 0 < ch_visc c -> mean_u c (ch_charlen c / 2) = ch_ucl c.
Proof.
  intros c H R V. unfold mean_u, u_plus. cbv zeta. replace (ch_charlen c - ch_charlen c / 2) with (ch_charlen c / 2) by field.
  rewrite Rmin_left by lra.
  replace (ch_retau c * (ch_charlen c / 2 / (ch_charlen c / 2))) with (ch_retau c) by (field; lra).
  destruct (Rle_dec (ch_retau c) 5) as [L|_]; [lra|].
  destruct (Rlt_dec (ch_retau c) 30) as [L|_]; [lra|]. field. lra.
Qed.
Lemma mean_nonneg : forall c y, 0 < ch_charlen c -> 0 < ch_retau c -> 0 < ch_visc c -> 0 <= ch_ucl c ->
  0 <= y <= ch_charlen c -> 0 <= mean_u c y.
Proof.
  intros c y H R V U Y. unfold mean_u.
  assert (T : 0 < ch_retau c * ch_visc c / (ch_charlen c / 2)).
  { apply Rdiv_lt_0_compat; [apply Rmult_lt_0_compat; assumption|lra]. }
  apply Rmult_le_pos; [|lra]. unfold u_plus. cbv zeta.
  assert (YP : 0 <= ch_retau c * (Rmin y (ch_charlen c - y) / (ch_charlen c / 2))).
  { apply Rmult_le_pos; [lra|]. apply Rle_mult_inv_pos; [|lra]. apply Rmin_glb; lra. }
  set (p := ch_retau c * (Rmin y (ch_charlen c - y) / (ch_charlen c / 2))) in *. clearbody p.
  destruct (Rle_dec p 5) as [L|L]; [exact YP|].
  destruct (Rlt_dec p 30) as [L2|L2].
  - assert (1 < ln p).
    { rewrite <- (ln_exp 1). apply ln_increasing; [apply exp_pos|]. pose proof exp_le_3. lra. }
    lra.
  - apply Rle_mult_inv_pos; assumption.
Qed.

Lemma temperature_mirror : forall c y, temperature0 c (ch_height c - y) = temperature0 c y.
Proof.
  intros c y. unfold temperature0.
  destruct (Rlt_dec (ch_height c / 2) (ch_height c - y)); destruct (Rlt_dec (ch_height c / 2) y); try lra.
  - replace (ch_height c - (ch_height c - y)) with y by ring. reflexivity.
  - replace y with (ch_height c - y) by lra. replace (ch_height c - (ch_height c - y)) with y by ring.
    replace (ch_height c - y) with y by lra. reflexivity.
Qed.
Lemma temperature_wall : forall c, 0 < ch_height c -> temperature0 c 0 = 85/100 /\ temperature0 c (ch_height c) = 85/100.
Proof.
  intros c H. assert (A : temperature0 c 0 = 85/100).
  { unfold temperature0. destruct (Rlt_dec _ 0); [lra|]. rewrite Rmult_0_l, tanh_0. lra. }
  split; [exact A|]. rewrite <- A. rewrite <- (temperature_mirror c 0). rewrite Rminus_0_r. reflexivity.
Qed.
Lemma temperature_range : forall c y, 0 < y < ch_height c -> 85/100 < temperature0 c y < 124/100.
Proof.
  intros c y H. unfold temperature0. destruct (Rlt_dec _ y).
  - pose proof (tanh_pos ((ch_height c - y) * 20) ltac:(lra)). pose proof (tanh_lt_1 ((ch_height c - y) * 20)). lra.
  - pose proof (tanh_pos (y * 20) ltac:(lra)). pose proof (tanh_lt_1 (y * 20)). lra.
Qed.

(** ** Differences *)
Lemma curl_divergence : forall h f x y z, h <> 0 -> divergence_h h (incompressible_u h f) x y z = 0.
Proof.
  intros h f x y z H. unfold divergence_h, moved, incompressible_u, grad_at, shifted. field. exact H.
Qed.

(** ** Modes *)
Lemma mode_orthogonal : forall m, k_dir m 0 * s_dir m 0 + k_dir m 1 * s_dir m 1 + k_dir m 2 * s_dir m 2 = 0.
Proof.
  intros [f p a t]. unfold k_dir, s_dir. cbn [mo_fi mo_alfa mo_teta].
  pose proof (sin2_cos2 f) as F. unfold Rsqr in F. 
  replace (sin t * cos f * (cos f * cos t * cos a - sin f * sin a) + sin t * sin f * (sin f * cos t * cos a + cos f * sin a)
           + cos t * (- sin t * cos a))
    with (sin t * cos t * cos a * (sin f * sin f + cos f * cos f - 1)) by ring.
  rewrite F. ring.
Qed.
Lemma k_unit : forall m, k_dir m 0 ^ 2 + k_dir m 1 ^ 2 + k_dir m 2 ^ 2 = 1.
Proof.
  intros [f p a t]. unfold k_dir. cbn [mo_fi mo_teta].
  pose proof (sin2_cos2 f) as F. pose proof (sin2_cos2 t) as T. unfold Rsqr in F, T.
  replace ((sin t * cos f) ^ 2 + (sin t * sin f) ^ 2 + cos t ^ 2)
    with (sin t * sin t * (sin f * sin f + cos f * cos f) + cos t * cos t) by ring.
  rewrite F. lra.
Qed.
Lemma s_unit : forall m, s_dir m 0 ^ 2 + s_dir m 1 ^ 2 + s_dir m 2 ^ 2 = 1.
Proof.
  intros [f p a t]. unfold s_dir. cbn [mo_fi mo_alfa mo_teta].
  pose proof (sin2_cos2 f) as F. pose proof (sin2_cos2 t) as T. pose proof (sin2_cos2 a) as A. unfold Rsqr in F, T, A.
  replace ((cos f * cos t * cos a - sin f * sin a) ^ 2 + (sin f * cos t * cos a + cos f * sin a) ^ 2 + (- sin t * cos a) ^ 2)
    with ((sin f * sin f + cos f * cos f) * (cos t * cos t * (cos a * cos a) + sin a * sin a) + sin t * sin t * (cos a * cos a)) by ring.
  rewrite F. replace (1 * (cos t * cos t * (cos a * cos a) + sin a * sin a) + sin t * sin t * (cos a * cos a))
    with ((sin t * sin t + cos t * cos t) * (cos a * cos a) + sin a * sin a) by ring.
  rewrite T. lra.
Qed.

Lemma mode_sum_divergence : forall s ms ws,
  divergence_free3 (fun x y z => mode_sum s ms ws x y z 0) (fun x y z => mode_sum s ms ws x y z 1)
                   (fun x y z => mode_sum s ms ws x y z 2).
Proof.
  intros s. induction ms as [|m ms IH]; intros ws.
  - exists (fun _ _ _ => 0), (fun _ _ _ => 0), (fun _ _ _ => 0). unfold d1, d2, d3. cbn [mode_sum].
    split; [|split; [|split]]; intros; try apply dl_const. ring.
  - destruct ws as [|[w dk] ws].
    + exists (fun _ _ _ => 0), (fun _ _ _ => 0), (fun _ _ _ => 0). unfold d1, d2, d3. cbn [mode_sum].
      split; [|split; [|split]]; intros; try apply dl_const. ring.
    + destruct (IH ws) as (ux & vy & wz & U & V & W & Z). clear IH.
      set (A := amplitude s m w dk).
      set (sn := fun x y z => sin (k_dir m 0 * w * x + k_dir m 1 * w * y + k_dir m 2 * w * z + mo_psi m)).
      exists (fun x y z => - (A * sn x y z * (k_dir m 0 * w) * s_dir m 0) + ux x y z),
             (fun x y z => - (A * sn x y z * (k_dir m 1 * w) * s_dir m 1) + vy x y z),
             (fun x y z => - (A * sn x y z * (k_dir m 2 * w) * s_dir m 2) + wz x y z).
      unfold d1, d2, d3 in *. cbn [mode_sum fst snd]. unfold contribution. fold A.
      split; [|split; [|split]].
      * intros a b c. apply dl_plus; [|apply U]. unfold sn. set (k0 := k_dir m 0). set (k1 := k_dir m 1). set (k2 := k_dir m 2). deriv. ring.
      * intros a b c. apply dl_plus; [|apply V]. unfold sn. set (k0 := k_dir m 0). set (k1 := k_dir m 1). set (k2 := k_dir m 2). deriv. ring.
      * intros a b c. apply dl_plus; [|apply W]. unfold sn. set (k0 := k_dir m 0). set (k1 := k_dir m 1). set (k2 := k_dir m 2). deriv. ring.
      * intros x y z. pose proof (Z x y z) as Z0. pose proof (mode_orthogonal m) as O.
        replace (- (A * sn x y z * (k_dir m 0 * w) * s_dir m 0) + ux x y z +
                 (- (A * sn x y z * (k_dir m 1 * w) * s_dir m 1) + vy x y z) +
                 (- (A * sn x y z * (k_dir m 2 * w) * s_dir m 2) + wz x y z))
          with (- A * sn x y z * w * (k_dir m 0 * s_dir m 0 + k_dir m 1 * s_dir m 1 + k_dir m 2 * s_dir m 2)
                + (ux x y z + vy x y z + wz x y z)) by ring.
        rewrite O, Z0. ring.
Qed.

(** The modes drawn. *)
Definition in_range (m : mode) :=
  0 < mo_fi m < 2 * PI /\ 0 < mo_psi m < 2 * PI /\ 0 < mo_alfa m < 2 * PI /\ 0 < mo_teta m < PI.

Lemma acos_open : forall a, -1 < a < 1 -> 0 < acos a < PI.
Proof. intros a A. apply acos_bound_lt. exact A. Qed.

Lemma zip4_ok : forall n a b c d, length a = n -> length b = n -> length c = n -> length d = n ->
  (forall v, In v a -> 0 < v < 2 * PI) -> (forall v, In v b -> 0 < v < 2 * PI) -> (forall v, In v c -> 0 < v < 2 * PI) ->
  (forall v, In v d -> 0 < v < 1) ->
  length (zip4 a b c d) = n /\ forall m, In m (zip4 a b c d) -> in_range m.
Proof.
  induction n; intros a b c d La Lb Lc Ld A B C D.
  - destruct a; [|discriminate]. split; [reflexivity|]. intros m [].
  - destruct a as [|x a]; [discriminate|]. destruct b as [|y b]; [discriminate|]. destruct c as [|z c]; [discriminate|].
    destruct d as [|w d]; [discriminate|]. cbn [zip4].
    cbn [length] in La, Lb, Lc, Ld. apply eq_add_S in La, Lb, Lc, Ld.
    destruct (IHn a b c d La Lb Lc Ld (fun v Hv => A v (or_intror Hv)) (fun v Hv => B v (or_intror Hv))
                (fun v Hv => C v (or_intror Hv)) (fun v Hv => D v (or_intror Hv))) as (L & I).
    split; [cbn [length]; f_equal; exact L|].
    intros m [<-|M]; [|apply I, M]. unfold in_range. cbn [mo_fi mo_psi mo_alfa mo_teta].
    split; [apply A; left; reflexivity|]. split; [apply B; left; reflexivity|]. split; [apply C; left; reflexivity|].
    apply acos_open. pose proof (D w (or_introl eq_refl)). lra.
Qed.

Lemma angles_ok : forall seed n, (-2147483646 <= seed <= 0)%Z ->
  exists ms g, angles n (fresh_rng seed) = Ok (ms, g) /\ length ms = n /\ forall m, In m ms -> in_range m.
Proof.
  intros seed n H. assert (S0 : (1 <= Z.max (- seed) 1 <= 2147483646)%Z) by lia.
  pose proof PI_RGT_0 as P.
  assert (T : forall lo hi l, lo < hi -> (forall v, In v l -> exists z, drawn (Z.max (- seed) 1) z /\ (v = Rmin (1 / IZR im * IZR z) rnmx * (hi - lo) + lo)%R) ->
    forall v, In v l -> lo < v < hi).
  { intros lo hi l LT I v V. destruct (I v V) as (z & D & ->). pose proof (unit_value _ z S0 D). nra. }
  unfold angles. change (g_seed (fresh_rng seed)) with seed.
  destruct (randf_1_ok _ S0 seed H eq_refl n 0 (fresh_rng seed) 0 (2 * PI) eq_refl) as (a & ga & Ea & La & Sa & Ia).
  cbn [g_seed fresh_rng] in Ea. rewrite Ea. cbn [obind fst snd].
  destruct (randf_1_ok _ S0 seed H eq_refl n _ ga 0 (2 * PI) Sa) as (b & gb & Eb & Lb & Sb & Ib).
  rewrite Eb. cbn [obind fst snd].
  destruct (randf_1_ok _ S0 seed H eq_refl n _ gb 0 (2 * PI) Sb) as (c & gc & Ec & Lc & Sc & Ic).
  rewrite Ec. cbn [obind fst snd].
  destruct (randf_1_ok _ S0 seed H eq_refl n _ gc 0 1 Sc) as (d & gd & Ed & Ld & Sd & Id).
  rewrite Ed. cbn [obind fst snd].
  exists (zip4 a b c d), gd. split; [reflexivity|].
  apply zip4_ok; auto.
  - apply (T 0 (2 * PI) a); [lra|exact Ia].
  - apply (T 0 (2 * PI) b); [lra|exact Ib].
  - apply (T 0 (2 * PI) c); [lra|exact Ic].
  - apply (T 0 1 d); [lra|exact Id].
Qed.

(** Uniform directions: the generator's values in the unit interval are the longitude and half the height below the pole. *)
Definition from_uniform (seed : Z) (m : mode) : Prop :=
  uniform_value seed (mo_fi m / (2 * PI)) /\ uniform_value seed (mo_psi m / (2 * PI)) /\
  uniform_value seed (mo_alfa m / (2 * PI)) /\ uniform_value seed ((1 - k_dir m 2) / 2).

Lemma zip4_uniform seed : forall n a b c d, length a = n -> length b = n -> length c = n -> length d = n ->
  (forall v, In v a -> uniform_value seed (v / (2 * PI))) -> (forall v, In v b -> uniform_value seed (v / (2 * PI))) ->
  (forall v, In v c -> uniform_value seed (v / (2 * PI))) ->
  (forall v, In v d -> 0 < v < 1 /\ uniform_value seed v) ->
  forall m, In m (zip4 a b c d) -> from_uniform seed m.
Proof.
  induction n; intros a b c d La Lb Lc Ld A B C D.
  - destruct a; [|discriminate]. intros m [].
  - destruct a as [|x a]; [discriminate|]. destruct b as [|y b]; [discriminate|]. destruct c as [|z c]; [discriminate|].
    destruct d as [|w d]; [discriminate|]. cbn [zip4].
    cbn [length] in La, Lb, Lc, Ld. apply eq_add_S in La, Lb, Lc, Ld.
    pose proof (IHn a b c d La Lb Lc Ld (fun v Hv => A v (or_intror Hv)) (fun v Hv => B v (or_intror Hv))
                (fun v Hv => C v (or_intror Hv)) (fun v Hv => D v (or_intror Hv))) as I.
    intros m [<-|M]; [|apply I, M]. unfold from_uniform. cbn [mo_fi mo_psi mo_alfa mo_teta k_dir].
    split; [apply A; left; reflexivity|]. split; [apply B; left; reflexivity|]. split; [apply C; left; reflexivity|].
    destruct (D w (or_introl eq_refl)) as [W U]. rewrite cos_acos by lra. replace ((1 - (1 - w / (1 / 2))) / 2) with w by field. exact U.
Qed.

Lemma angles_uniform : forall seed n, (-2147483646 <= seed <= 0)%Z ->
  exists ms g, angles n (fresh_rng seed) = Ok (ms, g) /\ length ms = n /\ forall m, In m ms -> from_uniform seed m.
Proof.
  intros seed n H. assert (S0 : (1 <= Z.max (- seed) 1 <= 2147483646)%Z) by lia.
  pose proof PI_RGT_0 as P.
  assert (T : forall l, (forall v, In v l -> exists z, drawn (Z.max (- seed) 1) z /\ (v = Rmin (1 / IZR im * IZR z) rnmx * (2 * PI - 0) + 0)%R) ->
    forall v, In v l -> uniform_value seed (v / (2 * PI))).
  { intros l I v V. destruct (I v V) as (z & (k & K & ->) & ->). exists k. split; [lia|].
    replace (1 / IZR im * IZR (lehmer k (Z.max (- seed) 1))) with (IZR (lehmer k (Z.max (- seed) 1)) / 2147483647) by (unfold im; field).
    unfold rnmx. field. lra. }
  unfold angles. change (g_seed (fresh_rng seed)) with seed.
  destruct (randf_1_ok _ S0 seed H eq_refl n 0 (fresh_rng seed) 0 (2 * PI) eq_refl) as (a & ga & Ea & La & Sa & Ia).
  cbn [g_seed fresh_rng] in Ea. rewrite Ea. cbn [obind fst snd].
  destruct (randf_1_ok _ S0 seed H eq_refl n _ ga 0 (2 * PI) Sa) as (b & gb & Eb & Lb & Sb & Ib).
  rewrite Eb. cbn [obind fst snd].
  destruct (randf_1_ok _ S0 seed H eq_refl n _ gb 0 (2 * PI) Sb) as (c & gc & Ec & Lc & Sc & Ic).
  rewrite Ec. cbn [obind fst snd].
  destruct (randf_1_ok _ S0 seed H eq_refl n _ gc 0 1 Sc) as (d & gd & Ed & Ld & Sd & Id).
  rewrite Ed. cbn [obind fst snd].
  assert (D : forall v, In v d -> 0 < v < 1 /\ uniform_value seed v).
  { intros v V. destruct (Id v V) as (z & Z & ->). pose proof (unit_value _ z S0 Z) as U. split; [lra|]. destruct Z as (k & K & ->). exists k. split; [lia|].
    replace (1 / IZR im * IZR (lehmer k (Z.max (- seed) 1))) with (IZR (lehmer k (Z.max (- seed) 1)) / 2147483647) by (unfold im; field).
    unfold rnmx. ring. }
  pose proof (zip4_uniform seed n a b c d La Lb Lc Ld (T a Ia) (T b Ib) (T c Ic) D) as Z.
  destruct (angles_ok seed n H) as (ms & g & E & L & _).
  unfold angles in E. change (g_seed (fresh_rng seed)) with seed in E.
  rewrite Ea in E. cbn [obind fst snd] in E. rewrite Eb in E. cbn [obind fst snd] in E. rewrite Ec in E. cbn [obind fst snd] in E.
  rewrite Ed in E. cbn [obind fst snd] in E. injection E as E1 E2.
  exists (zip4 a b c d), gd. split; [reflexivity|]. split; [rewrite E1; exact L|exact Z].
Qed.

Definition wave_bands (s : spectrum) : list (R * R) :=
  map (fun m => (sp_wnr1 s + (sp_wnrn s - sp_wnr1 s) / 12 * (INR m + 1/2), (sp_wnrn s - sp_wnr1 s) / 12)) (seq 0 12).

Lemma INR12 : INR 12 = 12. Proof. cbn [INR]. ring. Qed.
Lemma synthetic_repaired : forall s, exists ms, length ms = 12%nat /\ (forall m, In m ms -> in_range m) /\
  forall x y z i, synthetic 13 s x y z i = Ok (mode_sum s ms (wave_bands s) x y z i).
Proof.
  intros s. destruct (angles_ok (-50) 12 ltac:(lia)) as (ms & g & E & L & I).
  exists ms. split; [exact L|]. split; [exact I|]. intros x y z i.
  unfold synthetic. cbv zeta. rewrite E. cbn [obind fst snd].
  rewrite INR12. set (d := (sp_wnrn s - sp_wnr1 s) / 12). unfold wave_bands. fold d. clearbody d.
  set (w := sp_wnr1 s). clearbody w.
  cbn [faces put repeat obind centres at_index nth_error].
  f_equal. f_equal. cbn [map seq].
  repeat (apply f_equal2; [apply f_equal2; [rewrite ?S_INR; cbn [INR]; field|rewrite ?S_INR; cbn [INR]; ring]|]).
  reflexivity.
Qed.
Lemma synthetic_overrun : forall s x y z i, synthetic 12 s x y z i = UB.
Proof.
  intros s x y z i. destruct (angles_ok (-50) 12 ltac:(lia)) as (ms & g & E & _ & _).
  unfold synthetic. cbv zeta. rewrite E. cbn [obind fst snd].
  cbn [faces put repeat obind]. reflexivity.
Qed.
