(** The vortex, the shock tube, the Riemann problem and the density wave. *)
From Verif Require Import Prelude SpecBenchmarks ProofDeriv ProofBenchGrid ModelShocks SpecShocks ProofShocks.
Local Open Scope R_scope.

(** ** The vortex *)
Lemma dl_local f g x l a b : a < x < b -> (forall s, a < s < b -> f s = g s) -> derivable_pt_lim f x l -> derivable_pt_lim g x l.
Proof.
  intros Hx E H eps He. destruct (H eps He) as [d Hd].
  assert (Hm : 0 < Rmin d (Rmin (x - a) (b - x))) by (repeat apply Rmin_glb_lt; try lra; exact (cond_pos d)).
  exists (mkposreal _ Hm). intros h H0 H1. cbn in H1.
  pose proof (Rmin_l d (Rmin (x - a) (b - x))). pose proof (Rmin_r d (Rmin (x - a) (b - x))).
  pose proof (Rmin_l (x - a) (b - x)). pose proof (Rmin_r (x - a) (b - x)).
  assert (- (Rmin d (Rmin (x - a) (b - x))) < h < Rmin d (Rmin (x - a) (b - x))) by (apply Rabs_def2 in H1; lra).
  rewrite <- !E by lra. apply Hd; [exact H0|]. lra.
Qed.

Lemma exp1_bounds : 2 < exp 1 <= 3.
Proof. split; [pose proof (exp_ineq1 1 ltac:(lra)); lra|exact exp_le_3]. Qed.
Lemma exp_gauss r : 0 < exp (1 - r * r) <= exp 1.
Proof.
  split; [apply exp_pos|]. destruct (Req_dec r 0) as [->|N]; [replace (1 - 0 * 0) with 1 by ring; lra|].
  left. apply exp_increasing. assert (0 < r * r) by (apply Rsqr_pos_lt; exact N). lra.
Qed.
Lemma factor_le1 ma r : vortex_factor ma r <= 1.
Proof. unfold vortex_factor. pose proof (exp_gauss r). assert (0 <= ma * ma) by apply Rle_0_sqr. replace ((14 / 10 - 1) / 2 * ma * ma) with (2 / 10 * (ma * ma)) by field. nra. Qed.
Lemma factor_pos ma r : ma * ma < 5 / 3 -> 0 < vortex_factor ma r.
Proof.
  intros H. unfold vortex_factor. pose proof (exp_gauss r) as [A B]. pose proof exp1_bounds. assert (0 <= ma * ma) by apply Rle_0_sqr.
  replace ((14 / 10 - 1) / 2 * ma * ma) with (2 / 10 * (ma * ma)) by field. nra.
Qed.
Lemma factor_increasing ma r s : 0 <= r -> r <= s -> vortex_factor ma r <= vortex_factor ma s.
Proof.
  intros Hr Hs. unfold vortex_factor. assert (exp (1 - s * s) <= exp (1 - r * r)).
  { destruct (Req_dec r s) as [->|N]; [lra|]. left. apply exp_increasing. nra. }
  assert (0 <= ma * ma) by apply Rle_0_sqr. replace ((14 / 10 - 1) / 2 * ma * ma) with (2 / 10 * (ma * ma)) by field. nra.
Qed.

Lemma density_value ma base r : r <= 5 -> 0 < vortex_factor ma r -> vortex_density ma base r = Ok (base * Rpower (vortex_factor ma r) (1 / (14 / 10 - 1))).
Proof.
  intros Hr Hf. unfold vortex_density. destruct (Rle_dec r 5); [|contradiction]. destruct (Rlt_dec _ 0); [lra|]. destruct (Req_EM_T _ 0); [lra|reflexivity].
Qed.
Lemma temperature_value ma base r : r <= 5 -> vortex_temperature ma base r = base * vortex_factor ma r.
Proof. intros Hr. unfold vortex_temperature. destruct (Rle_dec r 5); [reflexivity|contradiction]. Qed.

(** Isentropic: T / T0 = (rho / rho0)^(gamma - 1). *)
Lemma vortex_isentropic ma rho0 T0 r rho : 0 < rho0 -> 0 < T0 -> 0 <= r -> 0 < vortex_factor ma r -> vortex_density ma rho0 r = Ok rho ->
  vortex_temperature ma T0 r / T0 = Rpower (rho / rho0) (14 / 10 - 1).
Proof.
  intros Hr HT H0 Hf H. destruct (Rle_dec r 5) as [L|L].
  - rewrite density_value in H by assumption. injection H as <-. rewrite temperature_value by assumption.
    replace (rho0 * Rpower (vortex_factor ma r) (1 / (14 / 10 - 1)) / rho0) with (Rpower (vortex_factor ma r) (1 / (14 / 10 - 1))) by (field; lra).
    rewrite Rpower_mult. replace (1 / (14 / 10 - 1) * (14 / 10 - 1)) with 1 by field. rewrite Rpower_1 by assumption. field. lra.
  - unfold vortex_density in H. unfold vortex_temperature. destruct (Rle_dec r 5); [contradiction|]. injection H as <-.
    replace (rho0 / rho0) with 1 by (field; lra). unfold Rpower. rewrite ln_1, Rmult_0_r, exp_0. field. lra.
Qed.

Section Vortex.
  Context (ma rho0 T0 : R) (rho : R -> R).
  Hypothesis Hr0 : 0 < rho0.
  Hypothesis HT0 : 0 < T0.
  Let T (s : R) := vortex_temperature ma T0 s.
  Let w (s : R) := s * vortex_speed ma (T s) * exp ((1 - s * s) / 2).
  Variable r : R.
  Hypothesis Hr : 0 < r < 5.
  Hypothesis Hf : 0 < vortex_factor ma r.
  Hypothesis Hrho : forall s, 0 <= s -> 0 < vortex_factor ma s -> vortex_density ma rho0 s = Ok (rho s).

  Lemma speed2 : w r * w r = r * r * (ma * ma * (14 / 10) * (T0 * vortex_factor ma r) / 3) * exp (1 - r * r).
  Proof.
    unfold w, T. rewrite temperature_value by lra.
    assert (A : vortex_speed ma (T0 * vortex_factor ma r) * vortex_speed ma (T0 * vortex_factor ma r) = ma * ma * (14 / 10) * (T0 * vortex_factor ma r) / 3).
    { rewrite <- speed_square by (apply Rmult_le_pos; lra). unfold vortex_speed. assert (0 < sqrt 3) by (apply sqrt_lt_R0; lra). field. lra. }
    assert (B : exp ((1 - r * r) / 2) * exp ((1 - r * r) / 2) = exp (1 - r * r)) by (rewrite <- exp_plus; f_equal; field).
    transitivity (r * r * (vortex_speed ma (T0 * vortex_factor ma r) * vortex_speed ma (T0 * vortex_factor ma r)) * (exp ((1 - r * r) / 2) * exp ((1 - r * r) / 2))); [ring|].
    rewrite A, B. ring.
  Qed.

  Lemma factor_near : exists a, 0 <= a < r /\ forall s, a < s -> 0 < vortex_factor ma s.
  Proof.
    assert (C : continuity_pt (vortex_factor ma) r).
    { apply derivable_continuous_pt. exists (2 / 10 * ma * ma * (2 * r) * exp (1 - r * r)). unfold vortex_factor. deriv. field. }
    destruct (C (vortex_factor ma r) Hf) as (d & Hd & H).
    set (a := Rmax 0 (r - d / 2)). assert (Ha : 0 <= a < r) by (unfold a; split; [apply Rmax_l|apply Rmax_lub_lt; lra]).
    exists a. split; [exact Ha|]. intros s Hs. destruct (Rle_dec r s) as [L|L].
    - pose proof (factor_increasing ma r s ltac:(lra) L). lra.
    - apply Rnot_le_lt in L. assert (Hd2 : Rabs (s - r) < d). { apply Rabs_def1; [lra|]. pose proof (Rmax_r 0 (r - d / 2)). unfold a in Hs. lra. }
      assert (D : dist R_met (vortex_factor ma s) (vortex_factor ma r) < vortex_factor ma r).
      { apply H. split; [split; [exact I|intros Z; lra]|exact Hd2]. }
      cbn [dist R_met] in D. unfold R_dist in D. apply Rabs_def2 in D. lra.
  Qed.

  Lemma vortex_gradient : derivable_pt_lim (fun s => gas_pressure (rho s) (T s)) r (rho r * (w r * w r) / r / vortex_factor ma r).
  Proof.
    destruct factor_near as (a & Ha & Hpos).
    assert (Er : rho r = rho0 * Rpower (vortex_factor ma r) (1 / (14 / 10 - 1))).
    { pose proof (Hrho r ltac:(lra) Hf) as E. rewrite density_value in E by lra. injection E as <-. reflexivity. }
    apply (dl_local (fun s => rho0 * T0 / 3 * exp (7 / 2 * ln (vortex_factor ma s))) _ r _ a 5 ltac:(lra)).
    - intros s Hs. pose proof (Hpos s ltac:(lra)) as Hfs. pose proof (Hrho s ltac:(lra) Hfs) as E. rewrite density_value in E by lra. injection E as <-.
      unfold T, gas_pressure. rewrite temperature_value by lra.
      assert (X : exp (7 / 2 * ln (vortex_factor ma s)) = Rpower (vortex_factor ma s) (1 / (14 / 10 - 1)) * vortex_factor ma s).
      { rewrite <- (Rpower_1 (vortex_factor ma s)) at 3 by assumption. rewrite <- Rpower_plus. unfold Rpower. f_equal. f_equal. field. }
      rewrite X. field.
    - rewrite speed2, Er.
      assert (D : derivable_pt_lim (vortex_factor ma) r (2 / 10 * ma * ma * (2 * r) * exp (1 - r * r))) by (unfold vortex_factor; deriv; field).
      eapply dl_eq.
      + apply dl_mult; [apply dl_const|]. apply (dl_comp exp). { apply dl_mult; [apply dl_const|]. apply (dl_comp ln); [exact D|]. apply derivable_pt_lim_ln. exact Hf. } apply derivable_pt_lim_exp.
      + assert (X : exp (7 / 2 * ln (vortex_factor ma r)) = Rpower (vortex_factor ma r) (1 / (14 / 10 - 1)) * vortex_factor ma r).
        { rewrite <- (Rpower_1 (vortex_factor ma r)) at 3 by assumption. rewrite <- Rpower_plus. unfold Rpower. f_equal. f_equal. field. }
        rewrite X. set (P := Rpower (vortex_factor ma r) (1 / (14 / 10 - 1))). clearbody P. set (F := vortex_factor ma r) in *. clearbody F. field. lra.
  Qed.

  Lemma vortex_balance : radial_equilibrium rho w T r <-> ma = 0.
  Proof.
    pose proof vortex_gradient as D. split.
    - intros E. pose proof (dl_unique _ _ _ _ D E) as Q.
      assert (Er : rho r = rho0 * Rpower (vortex_factor ma r) (1 / (14 / 10 - 1))).
      { pose proof (Hrho r ltac:(lra) Hf) as Er. rewrite density_value in Er by lra. injection Er as <-. reflexivity. }
      assert (Prho : 0 < rho r) by (rewrite Er; apply Rmult_lt_0_compat; [exact Hr0|apply exp_pos]).
      pose proof speed2 as S2. destruct (Req_dec ma 0) as [|N]; [assumption|exfalso].
      assert (Pm : 0 < ma * ma) by (apply Rsqr_pos_lt; exact N). pose proof (exp_pos (1 - r * r)) as Pe.
      assert (Pw : 0 < w r * w r). { rewrite S2. apply Rmult_lt_0_compat; [|exact Pe]. apply Rmult_lt_0_compat; [nra|]. assert (0 < T0 * vortex_factor ma r) by (apply Rmult_lt_0_compat; assumption). set (TF := T0 * vortex_factor ma r) in *. set (M2 := ma * ma) in *. assert (0 < M2 * TF) by (apply Rmult_lt_0_compat; assumption). lra. }
      assert (F1 : vortex_factor ma r < 1). { unfold vortex_factor. replace ((14 / 10 - 1) / 2 * ma * ma) with (2 / 10 * (ma * ma)) by field. nra. }
      assert (K : 0 < rho r * (w r * w r) / r) by (apply Rdiv_lt_0_compat; [apply Rmult_lt_0_compat; assumption|lra]).
      apply (f_equal (fun z => z * vortex_factor ma r)) in Q. unfold Rdiv at 1 in Q. rewrite Rmult_assoc, Rinv_l in Q by lra. nra.
    - intros E. unfold radial_equilibrium. eapply dl_eq; [exact D|]. assert (F1 : vortex_factor ma r = 1) by (unfold vortex_factor; rewrite E; field). rewrite F1. field. lra.
  Qed.
End Vortex.

(** The vortex of a point of the domain. *)
Lemma base_positive : forall x, 1 < ramp svi_steepness svi_shockPosition svi_temperatureLeft svi_temperatureRight x /\ 1 < ramp svi_steepness svi_shockPosition svi_densityLeft svi_densityRight x.
Proof.
  intros x. split.
  - apply (ramp_between svi_steepness svi_shockPosition svi_temperatureLeft svi_temperatureRight x). unfold svi_temperatureLeft, svi_temperatureRight. lra.
  - apply (ramp_between svi_steepness svi_shockPosition svi_densityLeft svi_densityRight x). unfold svi_densityLeft, svi_densityRight. lra.
Qed.

Lemma weak_vortex ma x y : ma * ma < 5 / 3 -> exists rho, svi_density ma x y = Ok rho /\ 0 < rho /\ 0 < svi_temperature ma x y /\
  (radius x y <> 0 -> forall component, exists u, svi_velocity ma x y component = Ok u).
Proof.
  intros H. destruct (base_positive x) as [BT BD]. pose proof (factor_pos ma (radius x y) H) as F.
  assert (PT : 0 < svi_temperature ma x y).
  { unfold svi_temperature, vortex_temperature. destruct (Rle_dec _ 5); [apply Rmult_lt_0_compat|]; lra. }
  unfold svi_density. destruct (Rle_dec (radius x y) 5) as [L|L].
  - rewrite density_value by assumption. eexists. split; [reflexivity|]. split; [apply Rmult_lt_0_compat; [lra|apply exp_pos]|]. split; [exact PT|].
    intros N c. unfold svi_velocity. cbv zeta. destruct (Rle_dec _ 5); [|contradiction]. destruct (Req_EM_T _ 0); [contradiction|]. destruct (Rlt_dec _ 0); [lra|].
    destruct c as [|[|c]]; eexists; reflexivity.
  - unfold vortex_density. destruct (Rle_dec _ 5); [contradiction|]. eexists. split; [reflexivity|]. split; [lra|]. split; [exact PT|].
    intros N c. unfold svi_velocity. cbv zeta. destruct (Rle_dec _ 5); [contradiction|]. eexists; reflexivity.
Qed.

Lemma centre_radius : radius 32 12 = 0.
Proof. unfold radius, x_rel, y_rel, svi_shockPosition, svi_vortexOffset. replace ((32 - (30 + 2)) * (32 - (30 + 2)) + (12 - 12) * (12 - 12)) with 0 by ring. apply sqrt_0. Qed.

Lemma centre_undefined ma component : svi_velocity ma 32 12 component = UB.
Proof. unfold svi_velocity. rewrite centre_radius. cbv zeta. destruct (Rle_dec 0 5); [|lra]. destruct (Req_EM_T 0 0); [reflexivity|lra]. Qed.

Lemma strong_vortex : svi_temperature 2 32 12 < 0 /\ svi_density 2 32 12 = UB.
Proof.
  unfold svi_temperature, svi_density, vortex_temperature, vortex_density. rewrite centre_radius. destruct (Rle_dec 0 5); [|lra].
  assert (F : vortex_factor 2 0 < 0). { unfold vortex_factor. replace (1 - 0 * 0) with 1 by ring. pose proof exp1_bounds. lra. }
  destruct (base_positive 32) as [A _]. split; [nra|]. destruct (Rlt_dec _ 0); [reflexivity|contradiction].
Qed.

(** The periodic boundary joins different states. *)
Lemma exp_small z : 0 <= z -> exp (- z) <= 1 / (1 + z).
Proof.
  intros H. rewrite exp_Ropp. assert (1 + z <= exp z) by (destruct (Req_dec z 0) as [->|N]; [rewrite exp_0; lra|left; apply exp_ineq1; lra]).
  unfold Rdiv. rewrite Rmult_1_l. apply Rinv_le_contravar; lra.
Qed.
Lemma far_radius x y : 5 < Rabs (x_rel x) -> 5 < radius x y.
Proof.
  intros H. unfold radius. apply (Rlt_le_trans _ _ _ H). rewrite <- (sqrt_Rsqr_abs (x_rel x)). unfold Rsqr. apply sqrt_le_1_alt. pose proof (Rle_0_sqr (y_rel y)) as P. unfold Rsqr in P. lra.
Qed.
Lemma seam ma y : exists a b, svi_density ma 0 y = Ok a /\ svi_density ma 60 y = Ok b /\ b + 1 / 3 < a.
Proof.
  assert (Fl : 5 < radius 0 y) by (apply far_radius; unfold x_rel, svi_shockPosition, svi_vortexOffset; rewrite Rabs_left; lra).
  assert (Fr : 5 < radius 60 y) by (apply far_radius; unfold x_rel, svi_shockPosition, svi_vortexOffset; rewrite Rabs_right; lra).
  unfold svi_density, vortex_density. destruct (Rle_dec (radius 0 y) 5); [lra|]. destruct (Rle_dec (radius 60 y) 5); [lra|].
  do 2 eexists. split; [reflexivity|]. split; [reflexivity|].
  assert (S : 0 < svi_steepness) by (unfold svi_steepness; lra).
  assert (NE : svi_densityLeft <> svi_densityRight) by (unfold svi_densityLeft, svi_densityRight; lra).
  pose proof (ramp_left svi_steepness svi_shockPosition svi_densityLeft svi_densityRight 0 S NE ltac:(unfold svi_shockPosition; lra)) as A.
  pose proof (ramp_right svi_steepness svi_shockPosition svi_densityLeft svi_densityRight 60 S NE ltac:(unfold svi_shockPosition; lra)) as B.
  replace (2 * (svi_steepness * (0 - svi_shockPosition))) with (- (60000000)) in A by (unfold svi_steepness, svi_shockPosition; ring).
  replace (- (2 * (svi_steepness * (60 - svi_shockPosition)))) with (- (60000000)) in B by (unfold svi_steepness, svi_shockPosition; ring).
  pose proof (exp_small 60000000 ltac:(lra)) as E. assert (K : Rabs (svi_densityRight - svi_densityLeft) <= 1) by (apply Rabs_le; unfold svi_densityLeft, svi_densityRight; lra).
  assert (P : Rabs (svi_densityRight - svi_densityLeft) * exp (- (60000000)) <= 1 / 1000).
  { pose proof (exp_pos (- (60000000))). pose proof (Rabs_pos (svi_densityRight - svi_densityLeft)). apply Rle_trans with (1 * exp (- (60000000))); [apply Rmult_le_compat_r; lra|]. lra. }
  assert (A' : Rabs (ramp svi_steepness svi_shockPosition svi_densityLeft svi_densityRight 0 - svi_densityLeft) <= 1 / 1000) by lra.
  assert (B' : Rabs (ramp svi_steepness svi_shockPosition svi_densityLeft svi_densityRight 60 - svi_densityRight) <= 1 / 1000) by lra.
  clear A B E P K. revert A' B'. generalize (ramp svi_steepness svi_shockPosition svi_densityLeft svi_densityRight 0) (ramp svi_steepness svi_shockPosition svi_densityLeft svi_densityRight 60).
  intros a b A B. unfold svi_densityLeft, svi_densityRight in A, B. unfold Rabs in A, B. destruct (Rcase_abs _) in A; destruct (Rcase_abs _) in B; lra.
Qed.

(** ** The shock tube *)
Lemma sod_left length x : x <= length / 2 ->
  Rabs (sod_density length x - 8) <= 7 * exp (20000 * (x - length / 2)) /\ Rabs (sod_temperature length x - 5 / 4) <= 1 / 4 * exp (20000 * (x - length / 2)).
Proof.
  intros H. split.
  - pose proof (ramp_left 10000 (length / 2) 8 1 x ltac:(lra) ltac:(lra) H) as A. replace (Rabs (1 - 8)) with 7 in A by (rewrite Rabs_left; lra).
    replace (2 * (10000 * (x - length / 2))) with (20000 * (x - length / 2)) in A by ring. exact A.
  - pose proof (ramp_left 10000 (length / 2) (125 / 100) 1 x ltac:(lra) ltac:(lra) H) as A. replace (Rabs (1 - 125 / 100)) with (1 / 4) in A by (rewrite Rabs_left; lra).
    replace (2 * (10000 * (x - length / 2))) with (20000 * (x - length / 2)) in A by ring. replace (5 / 4) with (125 / 100) by field. exact A.
Qed.
Lemma sod_right length x : length / 2 <= x ->
  Rabs (sod_density length x - 1) <= 7 * exp (- (20000 * (x - length / 2))) /\ Rabs (sod_temperature length x - 1) <= 1 / 4 * exp (- (20000 * (x - length / 2))).
Proof.
  intros H. split.
  - pose proof (ramp_right 10000 (length / 2) 8 1 x ltac:(lra) ltac:(lra) H) as A. replace (Rabs (1 - 8)) with 7 in A by (rewrite Rabs_left; lra).
    replace (2 * (10000 * (x - length / 2))) with (20000 * (x - length / 2)) in A by ring. exact A.
  - pose proof (ramp_right 10000 (length / 2) (125 / 100) 1 x ltac:(lra) ltac:(lra) H) as A. replace (Rabs (1 - 125 / 100)) with (1 / 4) in A by (rewrite Rabs_left; lra).
    replace (2 * (10000 * (x - length / 2))) with (20000 * (x - length / 2)) in A by ring. exact A.
Qed.

(** ** The Riemann problem *)
Lemma riemann_contacts t : (exists u, riemann_velocity 1 t 1 = Ok u) /\ forall a b, a <= 1 -> 1 < b ->
  (t <= 1 -> gas_pressure (riemann_density a t) (riemann_temperature a t) = gas_pressure (riemann_density b t) (riemann_temperature b t) /\ riemann_velocity a t 0 = riemann_velocity b t 0) /\
  (t <= 1 -> gas_pressure (riemann_density t a) (riemann_temperature t a) = gas_pressure (riemann_density t b) (riemann_temperature t b) /\ riemann_velocity t a 1 = riemann_velocity t b 1).
Proof.
  split.
  - unfold riemann_velocity. destruct (Rlt_dec 1 1); [lra|]. eexists; reflexivity.
  - intros a b Ha Hb. unfold riemann_density, riemann_temperature, riemann_velocity, gas_pressure.
    split; intros Ht; destruct (Rle_dec a 1); try lra; destruct (Rle_dec b 1); try lra; destruct (Rle_dec t 1); try lra; destruct (Rlt_dec 1 t); try lra; (split; [lra|reflexivity]).
Qed.
Lemma riemann_symmetric x y : riemann_density x y = riemann_density y x /\ riemann_temperature x y = riemann_temperature y x /\ riemann_velocity x y 0 = riemann_velocity y x 1.
Proof.
  unfold riemann_density, riemann_temperature, riemann_velocity.
  destruct (Rle_dec x 1), (Rle_dec y 1), (Rlt_dec 1 x), (Rlt_dec 1 y); try lra; repeat split; reflexivity.
Qed.
Lemma riemann_upper x y : 1 < x -> 1 < y -> 4 / 10 + 2 / 10000 < 3 * gas_pressure (riemann_density x y) (riemann_temperature x y) < 4 / 10 + 3 / 10000.
Proof.
  intros Hx Hy. unfold riemann_density, riemann_temperature, gas_pressure. destruct (Rle_dec x 1); [lra|]. destruct (Rle_dec y 1); [lra|]. lra.
Qed.
Definition riemann_conditions (eps s a b y u1 u2 : R) : Prop :=
  shock_conditions eps (14 / 10) s (riemann_density a y) u1 (riemann_temperature a y) (riemann_density b y) u2 (riemann_temperature b y).
Lemma riemann_states a b y : a <= 1 -> 1 < b -> 1 < y ->
  riemann_density a y = 1 /\ riemann_temperature a y = 1 /\ riemann_velocity a y 0 = Ok (42008 / 100000) /\
  riemann_density b y = 5313 / 10000 /\ riemann_temperature b y = 7532956685 / 10000000000 /\ riemann_velocity b y 0 = Ok 0.
Proof.
  intros Ha Hb Hy. unfold riemann_density, riemann_temperature, riemann_velocity.
  destruct (Rle_dec a 1); [|lra]. destruct (Rle_dec b 1); [lra|]. destruct (Rle_dec y 1); [lra|]. destruct (Rlt_dec 1 y); [|lra]. repeat split; reflexivity.
Qed.
Lemma riemann_shock a b y : a <= 1 -> 1 < b -> 1 < y -> exists s u1 u2, riemann_velocity a y 0 = Ok u1 /\ riemann_velocity b y 0 = Ok u2 /\
  shock_conditions (12 / 100000) (14 / 10) s (riemann_density a y) u1 (riemann_temperature a y) (riemann_density b y) u2 (riemann_temperature b y).
Proof.
  intros Ha Hb Hy. destruct (riemann_states a b y Ha Hb Hy) as (A & B & C & D & E & F).
  exists (896270 / 1000000), (42008 / 100000), 0. split; [exact C|]. split; [exact F|]. rewrite A, B, D, E.
  assert (Q : forall a, a / (14 / 10 - 1) = a * (5 / 2)) by (intros; field). unfold shock_conditions, gas_energy, gas_pressure. rewrite !Q. split; [|split]; apply Rabs_le; lra.
Qed.
Lemma riemann_shock_rough a b y s u1 u2 : a <= 1 -> 1 < b -> 1 < y -> riemann_velocity a y 0 = Ok u1 -> riemann_velocity b y 0 = Ok u2 ->
  ~ shock_conditions (11 / 100000) (14 / 10) s (riemann_density a y) u1 (riemann_temperature a y) (riemann_density b y) u2 (riemann_temperature b y).
Proof.
  intros Ha Hb Hy Hu1 Hu2. destruct (riemann_states a b y Ha Hb Hy) as (A & B & C & D & E & F). rewrite C in Hu1. rewrite F in Hu2. injection Hu1 as <-. injection Hu2 as <-.
  assert (Q : forall a, a / (14 / 10 - 1) = a * (5 / 2)) by (intros; field).
  rewrite A, B, D, E. unfold shock_conditions, gas_energy, gas_pressure. rewrite !Q. intros (_ & Y & Z).
  unfold Rabs in Y, Z. destruct (Rcase_abs _) in Y; destruct (Rcase_abs _) in Z; lra.
Qed.

(** ** The density wave *)
Section Wave.
  Context (L U : R).
  Hypothesis HL : 0 < L.
  Let rho := sdp_density L U.

  Lemma sdp_positive x y t : 8 / 10 <= rho x y t <= 12 / 10.
  Proof.
    unfold rho, sdp_density. pose proof (SIN_bound (2 * PI * x / L - 2 * PI * U * t)). pose proof (SIN_bound (y * (2 * PI) / L)).
    revert H H0. generalize (sin (2 * PI * x / L - 2 * PI * U * t)) (sin (y * (2 * PI) / L)). intros a b A B. assert (-1 <= a * b <= 1) by (split; nra). lra.
  Qed.
  Lemma sdp_pressure x y t : gas_pressure (rho x y t) (sdp_temperature L U x y t) = 1 / 3.
  Proof. pose proof (sdp_positive x y t). unfold sdp_temperature, gas_pressure. fold rho. field. lra. Qed.

  Definition wave_x x y t := 2 / 10 * (cos (2 * PI * x / L - 2 * PI * U * t) * (2 * PI / L) * sin (y * (2 * PI) / L)).
  Definition wave_t x y t := 2 / 10 * (cos (2 * PI * x / L - 2 * PI * U * t) * (- (2 * PI * U)) * sin (y * (2 * PI) / L)).
  Lemma rho_x : d1 rho wave_x.
  Proof. intros x y t. unfold rho, sdp_density, wave_x. deriv. field. lra. Qed.
  Lemma rho_t : d3 rho wave_t.
  Proof. intros x y t. unfold rho, sdp_density, wave_t. deriv. field. Qed.

  Lemma wave_defect x y t : wave_t x y t + U * wave_x x y t = 2 / 10 * (2 * PI * U) * (1 / L - 1) * (cos (2 * PI * x / L - 2 * PI * U * t) * sin (y * (2 * PI) / L)).
  Proof. unfold wave_t, wave_x. field. lra. Qed.

  Lemma rho_xU : d1 (fun x y t => rho x y t * U) (fun x y t => wave_x x y t * U).
  Proof.
    intros x y t. apply (dl_eq _ _ (wave_x x y t * U + rho x y t * 0)); [|ring].
    exact (dl_mult (fun s => rho s y t) (fun _ => U) x _ _ (rho_x x y t) (dl_const U x)).
  Qed.

  Lemma wave_mass : balance rho (fun x y t => rho x y t * U) (fun x y t => rho x y t * 0) <-> L = 1 \/ U = 0.
  Proof.
    split.
    - intros (qt & fx & fy & A & B & C & D).
      assert (A' : forall x y t, qt x y t = wave_t x y t) by (intros; apply (d3_unique rho); [exact A|exact rho_t]).
      assert (B' : forall x y t, fx x y t = wave_x x y t * U).
      { apply (d1_unique (fun x y t => rho x y t * U)); [exact B|exact rho_xU]. }
      assert (C' : forall x y t, fy x y t = 0).
      { apply (d2_unique (fun x y t => rho x y t * 0)); [exact C|]. intros x y t. apply (dl_ext (fun _ => 0)); [intros; ring|apply dl_const]. }
      specialize (D 0 (L / 4) 0). rewrite A', B', C' in D.
      assert (E : wave_t 0 (L / 4) 0 + U * wave_x 0 (L / 4) 0 = 0) by lra. rewrite wave_defect in E.
      replace (2 * PI * 0 / L - 2 * PI * U * 0) with 0 in E by (field; lra). rewrite cos_0 in E. replace (L / 4 * (2 * PI) / L) with (PI / 2) in E by (field; lra). rewrite sin_PI2 in E.
      pose proof PI_RGT_0 as P. destruct (Req_dec U 0) as [|N]; [right; assumption|left].
      assert (E2 : 1 / L - 1 = 0). { apply (Rmult_eq_reg_l (2 / 10 * (2 * PI * U))); [lra|]. intros Z. apply Rmult_integral in Z. destruct Z as [Z|Z]; [lra|]. apply Rmult_integral in Z. destruct Z; [lra|contradiction]. }
      apply (f_equal (fun z => z * L)) in E2. rewrite Rmult_0_l in E2. replace ((1 / L - 1) * L) with (1 - L) in E2 by (field; lra). lra.
    - intros H. exists wave_t, (fun x y t => wave_x x y t * U), (fun _ _ _ => 0). split; [exact rho_t|]. split.
      + exact rho_xU.
      + split; [intros x y t; apply (dl_ext (fun _ => 0)); [intros; ring|apply dl_const]|].
        intros x y t. replace (wave_t x y t + wave_x x y t * U + 0) with (wave_t x y t + U * wave_x x y t) by ring. rewrite wave_defect. destruct H as [-> | ->]; field. lra.
  Qed.

  Lemma balance_scale q fx fy q' fx' fy' (a b c k : R) : (forall x y t, q' x y t = q x y t * a + b) -> (forall x y t, fx' x y t = fx x y t * a + c) -> (forall x y t, fy' x y t = fy x y t * a + k) ->
    balance q fx fy -> balance q' fx' fy'.
  Proof.
    intros E1 E2 E3 (qt & fxx & fyy & A & B & C & D).
    exists (fun x y t => qt x y t * a), (fun x y t => fxx x y t * a), (fun x y t => fyy x y t * a). repeat split.
    - apply (d3_same (fun x y t => q x y t * a + b)); [intros; symmetry; apply E1|]. intros x y t. apply (dl_eq _ _ (qt x y t * a + q x y t * 0 + 0)); [|ring]. exact (dl_plus (fun s => (fun s => q x y s) s * a) (fun _ => b) t _ _ (dl_mult (fun s => q x y s) (fun _ => a) t _ _ (A x y t) (dl_const a t)) (dl_const b t)).
    - apply (d1_same (fun x y t => fx x y t * a + c)); [intros; symmetry; apply E2|]. intros x y t. apply (dl_eq _ _ (fxx x y t * a + fx x y t * 0 + 0)); [|ring]. exact (dl_plus (fun s => (fun s => fx s y t) s * a) (fun _ => c) x _ _ (dl_mult (fun s => fx s y t) (fun _ => a) x _ _ (B x y t) (dl_const a x)) (dl_const c x)).
    - apply (d2_same (fun x y t => fy x y t * a + k)); [intros; symmetry; apply E3|]. intros x y t. apply (dl_eq _ _ (fyy x y t * a + fy x y t * 0 + 0)); [|ring]. exact (dl_plus (fun s => (fun s => fy x s t) s * a) (fun _ => k) y _ _ (dl_mult (fun s => fy x s t) (fun _ => a) y _ _ (C x y t) (dl_const a y)) (dl_const k y)).
    - intros x y t. rewrite <- !Rmult_plus_distr_r, D. ring.
  Qed.

  Lemma wave_euler gamma : gamma <> 1 -> euler gamma rho (sdp_velocity U 0) (sdp_velocity U 1) (sdp_temperature L U) <-> L = 1 \/ U = 0.
  Proof.
    intros Hg. split.
    - intros (M & _). apply wave_mass. exact M.
    - intros H. apply wave_mass in H. unfold euler. cbv zeta. cbn [sdp_velocity].
      split; [exact H|]. split; [|split].
      + eapply (balance_scale _ _ _ _ _ _ U 0 (1 / 3) 0); [| | |exact H]; cbv beta; intros; fold rho; rewrite ?sdp_pressure; ring.
      + eapply (balance_scale _ _ _ _ _ _ 0 0 0 (1 / 3)); [| | |exact H]; cbv beta; intros; fold rho; rewrite ?sdp_pressure; ring.
      + eapply (balance_scale _ _ _ _ _ _ (U * U / 2) (1 / 3 / (gamma - 1)) ((1 / 3 / (gamma - 1) + 1 / 3) * U) 0); [| | |exact H]; cbv beta; intros; fold rho; unfold gas_energy; rewrite ?sdp_pressure; field; lra.
  Qed.
End Wave.
