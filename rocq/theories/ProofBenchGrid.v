(** The transformations of the grids of the benchmarks. *)
From Verif Require Import Prelude ModelBenchmarks SpecBenchmarks ProofDeriv.
Local Open Scope R_scope.

(** ** Hyperbolic tangent *)
Lemma tanh_exp : forall x, tanh x = 1 - 2 / (exp (2 * x) + 1).
Proof.
  intros x. unfold tanh, sinh, cosh. rewrite exp_Ropp. replace (2 * x) with (x + x) by ring. rewrite exp_plus.
  pose proof (exp_pos x). set (e := exp x) in *. field. repeat split; nra.
Qed.
Lemma tanh_increasing : forall x y, x < y -> tanh x < tanh y.
Proof.
  intros x y H. rewrite !tanh_exp.
  assert (E : exp (2 * x) < exp (2 * y)) by (apply exp_increasing; lra).
  pose proof (exp_pos (2 * x)).
  assert (/ (exp (2 * y) + 1) < / (exp (2 * x) + 1)) by (apply Rinv_lt_contravar; [nra|lra]).
  unfold Rdiv. lra.
Qed.
Lemma tanh_odd : forall x, tanh (- x) = - tanh x.
Proof.
  intros x. unfold tanh, sinh, cosh. rewrite Ropp_involutive. pose proof (exp_pos x). pose proof (exp_pos (- x)).
  field. lra.
Qed.
Lemma tanh_0 : tanh 0 = 0.
Proof. unfold tanh. rewrite sinh_0. unfold Rdiv. ring. Qed.
Lemma tanh_pos : forall x, 0 < x -> 0 < tanh x.
Proof. intros x H. rewrite <- tanh_0. apply tanh_increasing; exact H. Qed.
Lemma tanh_lt_1 : forall x, tanh x < 1.
Proof.
  intros x. rewrite tanh_exp. pose proof (exp_pos (2 * x)).
  assert (0 < 2 / (exp (2 * x) + 1)) by (apply Rdiv_lt_0_compat; lra). lra.
Qed.

Lemma half_pi : 0 < 1 / 2 * PI. Proof. pose proof PI_RGT_0. lra. Qed.

Lemma sinus_refineY_order : keeps_order 0 1 0 1 sinus_refineY.
Proof.
  pose proof (tanh_pos _ half_pi) as P. pose proof PI_RGT_0 as HP. unfold sinus_refineY. repeat split.
  - replace ((0 - 1 / 2) * PI) with (- (1 / 2 * PI)) by field. rewrite tanh_odd. field. lra.
  - replace ((1 - 1 / 2) * PI) with (1 / 2 * PI) by field. field. lra.
  - intros x y _ H _.
    assert (T : tanh ((x - 1 / 2) * PI) < tanh ((y - 1 / 2) * PI)) by (apply tanh_increasing, Rmult_lt_compat_r; lra).
    apply Rplus_lt_compat_l. unfold Rdiv. apply Rmult_lt_compat_r; [apply Rinv_0_lt_compat; exact P|]. lra.
Qed.
Lemma lubri_refineY_order : forall height, 0 < height -> keeps_order 0 height 0 height (lubri_refineY height).
Proof.
  intros h Hh. destruct sinus_refineY_order as (A & B & C).
  assert (E : forall y, lubri_refineY h y = h * sinus_refineY (y / h)) by reflexivity.
  repeat split.
  - rewrite E. replace (0 / h) with 0 by (field; lra). rewrite A. ring.
  - rewrite E. replace (h / h) with 1 by (field; lra). rewrite B. ring.
  - intros x y H0 H1 H2. rewrite !E. apply Rmult_lt_compat_l; [exact Hh|].
    assert (I : 0 < / h) by (apply Rinv_0_lt_compat; exact Hh).
    apply C.
    + unfold Rdiv. apply Rmult_le_pos; lra.
    + unfold Rdiv. apply Rmult_lt_compat_r; assumption.
    + apply (Rmult_le_reg_r h); [exact Hh|]. unfold Rdiv. rewrite Rmult_assoc, Rinv_l; lra.
Qed.

Lemma order_inj : forall a b c d f, keeps_order a b c d f -> forall x y, a <= x <= b -> a <= y <= b -> f x = f y -> x = y.
Proof.
  intros a b c d f (_ & _ & C) x y Hx Hy E. destruct (Rtotal_order x y) as [L|[L|L]]; [|exact L|].
  - specialize (C x y ltac:(lra) L ltac:(lra)). lra.
  - specialize (C y x ltac:(lra) L ltac:(lra)). lra.
Qed.
Lemma order_range : forall a b c d f, keeps_order a b c d f -> forall x, a <= x <= b -> c <= f x <= d.
Proof.
  intros a b c d f (A & B & C) x H. split.
  - destruct (Req_dec a x) as [<-|N]; [lra|]. specialize (C a x ltac:(lra) ltac:(lra) ltac:(lra)). lra.
  - destruct (Req_dec b x) as [<-|N]; [lra|]. specialize (C x b ltac:(lra) ltac:(lra) ltac:(lra)). lra.
Qed.
Lemma order_scale : forall a b c d f s, 0 < s -> keeps_order a b c d f -> keeps_order a b (s * c) (s * d) (fun x => s * f x).
Proof.
  intros a b c d f s Hs (A & B & C). repeat split; [rewrite A; reflexivity|rewrite B; reflexivity|].
  intros x y H0 H1 H2. apply Rmult_lt_compat_l; [exact Hs|apply C; assumption].
Qed.
Lemma order_ext : forall a b c d f g, (forall x, f x = g x) -> keeps_order a b c d f -> keeps_order a b c d g.
Proof.
  intros a b c d f g E (A & B & C). repeat split; [rewrite <- E; exact A|rewrite <- E; exact B|].
  intros x y H0 H1 H2. rewrite <- !E. apply C; assumption.
Qed.

Lemma cosine : forall x, -1 <= cos x <= 1. Proof. apply COS_bound. Qed.
Lemma abs_prod : forall a c, -1 <= c <= 1 -> - Rabs a <= a * c <= Rabs a.
Proof. intros a c H. unfold Rabs. destruct (Rcase_abs a); split; nra. Qed.

(** ** ShearLayer2D *)
Lemma shear_order : forall a, Rabs a < 1 -> keeps_order 0 1 0 1 (fun y => shear_trans y a).
Proof.
  intros a Ha. pose proof PI_RGT_0 as HP. unfold shear_trans. repeat split.
  - rewrite Rmult_0_r, sin_0. ring.
  - replace (4 * PI * 1) with (0 + 2 * INR 2 * PI) by (simpl; ring). rewrite sin_period, sin_0. simpl. field. lra.
  - apply (increasing_by_derivative _ (fun y => 1 + a * cos (4 * PI * y))).
    + intros y _. deriv. field. lra.
    + intros y _. pose proof (abs_prod a (cos (4 * PI * y)) (cosine _)). lra.
Qed.

(** ** CouetteFlow2D *)
Lemma couette2_order : keeps_order 0 1 0 1 couette2_trans.
Proof.
  pose proof (tanh_pos 2 ltac:(lra)) as P. unfold couette2_trans. repeat split.
  - replace (4 * (0 - 1 / 2)) with (- (2)) by field. rewrite tanh_odd. field. lra.
  - replace (4 * (1 - 1 / 2)) with 2 by field. field. lra.
  - intros x y _ H _.
    assert (tanh (4 * (x - 1 / 2)) < tanh (4 * (y - 1 / 2))) by (apply tanh_increasing; lra).
    apply Rplus_lt_compat_r. unfold Rdiv. apply Rmult_lt_compat_r; [lra|].
    apply Rmult_lt_compat_r; [apply Rinv_0_lt_compat; exact P|assumption].
Qed.
(** For a box of length 2 or more the moving plate is pulled down to a height below 2. *)
Lemma couette2_plate_moved : forall f x, 2 <= co_L f -> snd (couette2_grid true (x, couette2_plate f)) < couette2_plate f.
Proof.
  intros f x HL. cbn [couette2_grid snd fst]. unfold couette2_plate, couette2_trans.
  pose proof (tanh_lt_1 (4 * (co_L f - 1 / 2))) as A.
  assert (B : 1 / 3 < tanh 2).
  { rewrite tanh_exp.
    assert (2 < exp (2 * 2)).
    { pose proof (exp_ineq1 (2 * 2) ltac:(lra)). lra. }
    assert (2 / (exp (2 * 2) + 1) < 2 / 3) by (unfold Rdiv; apply Rmult_lt_compat_l; [lra|apply Rinv_lt_contravar; [nra|lra]]).
    lra. }
  assert (C : tanh (4 * (co_L f - 1 / 2)) / tanh 2 < 3).
  { apply (Rmult_lt_reg_r (tanh 2)); [lra|]. unfold Rdiv. rewrite Rmult_assoc, Rinv_l by lra. lra. }
  lra.
Qed.

(** ** SinusoidalShear2D *)
Lemma sinus_refineX_order : forall ampl, Rabs ampl <= 3 / 2 -> keeps_order 0 1 0 1 (sinus_refineX ampl).
Proof.
  intros a Ha. pose proof PI_RGT_0 as HP. unfold sinus_refineX. repeat split.
  - rewrite Rmult_0_r, sin_0. ring.
  - replace (4 * PI * 1) with (0 + 2 * INR 2 * PI) by (simpl; ring). rewrite sin_period, sin_0. ring.
  - apply (increasing_by_derivative _ (fun y => 1 - 19 / 1000 * 100 / 49 * 4 * PI * (a * cos (4 * PI * y)))).
    + intros y _. deriv. field.
    + intros y _. pose proof (abs_prod a (cos (4 * PI * y)) (cosine _)) as B.
      pose proof PI_4 as P4. nra.
Qed.
Lemma sinus_upper_pos : forall height ampl x, Rabs ampl < height -> 0 < sinus_upper height ampl x.
Proof.
  intros h a x H. unfold sinus_upper. pose proof (abs_prod a (sin (2 * PI * x)) (SIN_bound _)). lra.
Qed.

Section Sinus.
  Variables (height ampl wavelength : R) (g : R * R -> R * R).
  Hypotheses (Hg : forall p, sinus_grid height ampl wavelength p = Ok (g p)).
  Lemma sinus_value : forall x y, g (x, y) = (wavelength * sinus_refineX ampl x, sinus_refineY y * sinus_upper height ampl (sinus_refineX ampl x)).
  Proof.
    intros x y. specialize (Hg (x, y)). unfold sinus_grid in Hg. cbn [fst snd] in Hg.
    destruct (Rlt_dec ampl height); [congruence|discriminate].
  Qed.
  Hypotheses (Ha : Rabs ampl <= 3 / 2) (Hh : Rabs ampl < height) (Hw : 0 < wavelength).
  Lemma sinus_sides : forall y, keeps_order 0 1 0 wavelength (fun x => fst (g (x, y))).
  Proof.
    intros y. apply (order_ext _ _ _ _ (fun x => wavelength * sinus_refineX ampl x)).
    - intros x. rewrite sinus_value. reflexivity.
    - pose proof (order_scale _ _ _ _ _ wavelength Hw (sinus_refineX_order ampl Ha)) as H.
      rewrite Rmult_0_r, Rmult_1_r in H. exact H.
  Qed.
  Lemma sinus_columns : forall x, keeps_order 0 1 0 (sinus_upper height ampl (fst (g (x, 0)) / wavelength)) (fun y => snd (g (x, y))).
  Proof.
    intros x. rewrite sinus_value. cbn [fst].
    replace (wavelength * sinus_refineX ampl x / wavelength) with (sinus_refineX ampl x) by (field; lra).
    apply (order_ext _ _ _ _ (fun y => sinus_upper height ampl (sinus_refineX ampl x) * sinus_refineY y)).
    - intros y. rewrite sinus_value. cbn [snd]. ring.
    - pose proof (order_scale _ _ _ _ _ _ (sinus_upper_pos height ampl (sinus_refineX ampl x) Hh) sinus_refineY_order) as H.
      rewrite Rmult_0_r, Rmult_1_r in H. exact H.
  Qed.
  Lemma sinus_injective : one_to_one_on 1 1 g.
  Proof.
    intros [x y] [x' y'] H1 H2 H3 H4 E. cbn [fst snd] in *. rewrite !sinus_value in E.
    assert (EX : x = x').
    { apply (order_inj _ _ _ _ _ (sinus_refineX_order ampl Ha)); [assumption|assumption|].
      apply (Rmult_eq_reg_l wavelength); [congruence|lra]. }
    subst x'. f_equal.
    apply (order_inj _ _ _ _ _ sinus_refineY_order); [assumption|assumption|].
    apply (Rmult_eq_reg_r (sinus_upper height ampl (sinus_refineX ampl x))); [congruence|].
    pose proof (sinus_upper_pos height ampl (sinus_refineX ampl x) Hh). lra.
  Qed.
End Sinus.

(** A large amplitude folds the grid over the inflow side. *)
Lemma sin_6 : sin (4 * PI * (1 / 24)) = 1 / 2.
Proof. replace (4 * PI * (1 / 24)) with (PI / 6) by field. apply sin_PI6. Qed.
Lemma sinus_folds : forall wavelength, 0 < wavelength -> exists q,
  sinus_grid 5 4 wavelength (1 / 24, 0) = Ok q /\ fst q < 0.
Proof.
  intros w Hw. unfold sinus_grid. destruct (Rlt_dec 4 5) as [_|]; [|lra].
  eexists. split; [reflexivity|]. cbn [fst snd]. unfold sinus_refineX. rewrite sin_6. nra.
Qed.
(** A negative amplitude passes the assertion and puts the upper wall below the lower one. *)
Lemma sinus_upside_down : forall wavelength, exists q,
  sinus_grid 1 (-2) wavelength (1 / 4, 1) = Ok q /\ snd q < 0.
Proof.
  intros w. unfold sinus_grid. destruct (Rlt_dec (-2) 1) as [_|]; [|lra].
  eexists. split; [reflexivity|]. cbn [fst snd].
  assert (E : sinus_refineX (-2) (1 / 4) = 1 / 4).
  { unfold sinus_refineX. replace (4 * PI * (1 / 4)) with PI by field. rewrite sin_PI. ring. }
  rewrite E. unfold sinus_upper. replace (2 * PI * (1 / 4)) with (PI / 2) by field. rewrite sin_PI2.
  destruct sinus_refineY_order as (_ & -> & _). lra.
Qed.

(** ** LubricationSine *)
Lemma lubri_refineX_order : forall height ampl wavelength, 0 < height -> 0 < wavelength -> Rabs ampl < height ->
  keeps_order 0 wavelength 0 wavelength (lubri_refineX height ampl wavelength).
Proof.
  intros h a w Hh Hw Ha. pose proof PI_RGT_0 as HP. unfold lubri_refineX. repeat split.
  - replace (2 * PI * 0 / w) with 0 by (field; lra). rewrite sin_0. ring.
  - replace (2 * PI * w / w) with (2 * PI) by (field; lra). rewrite sin_2PI. ring.
  - apply (increasing_by_derivative _ (fun y => 1 + (a * cos (2 * PI * y / w)) / h)).
    + intros y _. deriv. field. lra.
    + intros y _. pose proof (abs_prod a (cos (2 * PI * y / w)) (cosine _)) as B.
      assert (-1 < (a * cos (2 * PI * y / w)) / h).
      { apply (Rmult_lt_reg_r h); [exact Hh|]. unfold Rdiv. rewrite Rmult_assoc, Rinv_l by lra. lra. }
      lra.
Qed.
Lemma lubri_upper_pos : forall height ampl wavelength roughness ratio x, Rabs ampl + Rabs roughness < height ->
  0 < lubri_upper height ampl wavelength roughness ratio x.
Proof.
  intros h a w r n x H. unfold lubri_upper.
  pose proof (abs_prod a (cos (2 * PI * x / w)) (cosine _)).
  pose proof (abs_prod r (cos (2 * PI * x / (w / INR n))) (cosine _)). lra.
Qed.
Section Lubri.
  Variables (height ampl wavelength roughness : R) (ratio : nat) (g : R * R -> R * R).
  Hypotheses (Hg : forall p, lubri_grid height ampl wavelength roughness ratio p = Ok (g p)).
  Let up := lubri_upper height ampl wavelength roughness ratio.
  Lemma lubri_value : forall x y, g (x, y) =
    (lubri_refineX height ampl wavelength x, lubri_refineY height y / height * up (lubri_refineX height ampl wavelength x)).
  Proof.
    intros x y. specialize (Hg (x, y)). unfold lubri_grid in Hg. cbn [fst snd] in Hg.
    destruct (Rlt_dec ampl height); [unfold up; congruence|discriminate].
  Qed.
  Hypotheses (Hr : Rabs ampl + Rabs roughness < height) (Hw : 0 < wavelength).
  Let Hh : 0 < height. Proof. pose proof (Rabs_pos ampl). pose proof (Rabs_pos roughness). lra. Qed.
  Let Ha : Rabs ampl < height. Proof. pose proof (Rabs_pos roughness). lra. Qed.
  Lemma lubri_sides : forall y, keeps_order 0 wavelength 0 wavelength (fun x => fst (g (x, y))).
  Proof.
    intros y. apply (order_ext _ _ _ _ (lubri_refineX height ampl wavelength)).
    - intros x. rewrite lubri_value. reflexivity.
    - apply lubri_refineX_order; assumption.
  Qed.
  Lemma lubri_columns : forall x, keeps_order 0 height 0 (lubri_upper height ampl wavelength roughness ratio (fst (g (x, 0)))) (fun y => snd (g (x, y))).
  Proof.
    intros x. rewrite lubri_value. cbn [fst]. set (x' := lubri_refineX height ampl wavelength x).
    assert (P : 0 < up x') by (apply lubri_upper_pos; exact Hr).
    apply (order_ext _ _ _ _ (fun y => (up x' / height) * lubri_refineY height y)).
    - intros y. rewrite lubri_value. fold x'. cbn [snd]. field. lra.
    - assert (Q : 0 < up x' / height) by (apply Rdiv_lt_0_compat; assumption).
      pose proof (order_scale _ _ _ _ _ _ Q (lubri_refineY_order height Hh)) as H.
      rewrite Rmult_0_r in H. replace (up x' / height * height) with (up x') in H by (field; lra). exact H.
  Qed.
  Lemma lubri_injective : one_to_one_on wavelength height g.
  Proof.
    intros [x y] [x' y'] H1 H2 H3 H4 E. cbn [fst snd] in *. rewrite !lubri_value in E.
    assert (EX : x = x').
    { apply (order_inj _ _ _ _ _ (lubri_refineX_order height ampl wavelength Hh Hw Ha)); [assumption|assumption|congruence]. }
    subst x'. f_equal.
    apply (order_inj _ _ _ _ _ (lubri_refineY_order height Hh)); [assumption|assumption|].
    assert (P : 0 < up (lubri_refineX height ampl wavelength x)) by (apply lubri_upper_pos; exact Hr).
    apply (Rmult_eq_reg_r (up (lubri_refineX height ampl wavelength x) / height)).
    - unfold Rdiv in *. replace (lubri_refineY height y * (up (lubri_refineX height ampl wavelength x) * / height)) with
        (lubri_refineY height y * / height * up (lubri_refineX height ampl wavelength x)) by ring.
      replace (lubri_refineY height y' * (up (lubri_refineX height ampl wavelength x) * / height)) with
        (lubri_refineY height y' * / height * up (lubri_refineX height ampl wavelength x)) by ring. congruence.
    - assert (0 < up (lubri_refineX height ampl wavelength x) / height) by (apply Rdiv_lt_0_compat; assumption). lra.
  Qed.
End Lubri.
(** The roughness is not part of the assertion. *)
Lemma lubri_upside_down : exists q, lubri_grid 1 (1 / 2) 1 (6 / 10) 1 (1 / 2, 1) = Ok q /\ snd q < 0.
Proof.
  unfold lubri_grid. destruct (Rlt_dec (1 / 2) 1) as [_|]; [|lra].
  eexists. split; [reflexivity|]. cbn [fst snd].
  assert (E : lubri_refineX 1 (1 / 2) 1 (1 / 2) = 1 / 2).
  { unfold lubri_refineX. replace (2 * PI * (1 / 2) / 1) with PI by field. rewrite sin_PI. ring. }
  rewrite E. unfold lubri_upper. replace (2 * PI * (1 / 2) / 1) with PI by field.
  replace (2 * PI * (1 / 2) / (1 / INR 1)) with PI by (simpl; field). rewrite cos_PI.
  destruct (lubri_refineY_order 1 ltac:(lra)) as (_ & -> & _). lra.
Qed.
