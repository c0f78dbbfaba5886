(** Initial states of the shear layer and the droplet. *)
From Verif Require Import Prelude ModelBenchmarks SpecBenchmarks ProofDeriv ProofBenchGrid.
Local Open Scope R_scope.

Lemma tanh_bounds : forall x, -1 < tanh x < 1.
Proof. intros x. pose proof (tanh_lt_1 x). pose proof (tanh_lt_1 (- x)). rewrite tanh_odd in *. lra. Qed.
Lemma tanh_continuous : forall x, continuity_pt tanh x.
Proof.
  intros x. apply derivable_continuous_pt.
  assert (D : derivable_pt (fun s => sinh s / cosh s) x).
  { apply (derivable_pt_div sinh cosh).
    - exists (cosh x). apply derivable_pt_lim_sinh.
    - exists (sinh x). apply derivable_pt_lim_cosh.
    - unfold cosh. pose proof (exp_pos x). pose proof (exp_pos (- x)). lra. }
  exact D.
Qed.

Section Shear.
  Variables (u0 kappa perturbation : R) (u v : R -> R -> R -> R).
  Hypothesis Hu : forall x y t, shear_velocity u0 kappa perturbation 0 x y = Ok (u x y t).
  Hypothesis Hv : forall x y t, shear_velocity u0 kappa perturbation 1 x y = Ok (v x y t).
  Lemma shear_u : forall x y t, u x y t = u0 * tanh (kappa * (1 / 4 - Rabs (y - 1 / 2))).
  Proof.
    intros x y t. specialize (Hu x y t). cbn [shear_velocity] in Hu.
    destruct (Rle_dec y (1 / 2)) as [L|L]; injection Hu as <-; do 3 f_equal.
    - rewrite Rabs_left1 by lra. lra.
    - rewrite Rabs_pos_eq by lra. lra.
  Qed.
  Lemma shear_v : forall x y t, v x y t = perturbation * u0 * sin (2 * PI * (x + 1 / 4)).
  Proof.
    intros x y t. specialize (Hv x y t). cbn [shear_velocity] in Hv. injection Hv as <-. do 2 f_equal. field.
  Qed.
  Lemma shear_divergence : divergence_free2 u v.
  Proof.
    exists (fun _ _ _ => 0), (fun _ _ _ => 0). split; [|split].
    - intros x y t. apply (dl_ext (fun _ => u0 * tanh (kappa * (1 / 4 - Rabs (y - 1 / 2))))); [intros; symmetry; apply shear_u|apply dl_const].
    - intros x y t. apply (dl_ext (fun _ => perturbation * u0 * sin (2 * PI * (x + 1 / 4)))); [intros; symmetry; apply shear_v|apply dl_const].
    - intros; lra.
  Qed.
  Lemma shear_sides : forall x y t, u 0 y t = u 1 y t /\ v 0 y t = v 1 y t /\ u x 0 t = u x 1 t /\ v x 0 t = v x 1 t.
  Proof.
    intros x y t. rewrite !shear_u, !shear_v. repeat split.
    - replace (2 * PI * (1 + 1 / 4)) with (2 * PI * (0 + 1 / 4) + 2 * INR 1 * PI) by (simpl; field). rewrite sin_period. reflexivity.
    - rewrite Rabs_left, Rabs_pos_eq by lra. do 3 f_equal. lra.
  Qed.
  Lemma shear_continuous : forall x y t, continuity_pt (fun s => u s y t) x /\ continuity_pt (fun s => u x s t) y /\
    continuity_pt (fun s => v s y t) x /\ continuity_pt (fun s => v x s t) y.
  Proof.
    intros x y t.
    assert (ext : forall f g a, (forall s, f s = g s) -> continuity_pt f a -> continuity_pt g a).
    { intros f g a E H eps He. destruct (H eps He) as (d & Hd & P). exists d. split; [exact Hd|]. intros s Hs. rewrite <- !E. apply P, Hs. }
    assert (cst : forall (r a : R), continuity_pt (fun _ => r) a).
    { intros r a. apply derivable_continuous_pt. exists 0. apply dl_const. }
    repeat split.
    - apply (ext (fun _ => u0 * tanh (kappa * (1 / 4 - Rabs (y - 1 / 2))))); [intros; symmetry; apply shear_u|apply cst].
    - apply (ext (fun s => u0 * tanh (kappa * (1 / 4 - Rabs (s - 1 / 2))))); [intros; symmetry; apply shear_u|].
      apply (continuity_pt_mult (fun _ => u0) (fun s => tanh (kappa * (1 / 4 - Rabs (s - 1 / 2))))); [apply cst|].
      apply (continuity_pt_comp (fun s => kappa * (1 / 4 - Rabs (s - 1 / 2))) tanh); [|apply tanh_continuous].
      apply (continuity_pt_mult (fun _ => kappa) (fun s => 1 / 4 - Rabs (s - 1 / 2))); [apply cst|].
      apply (continuity_pt_minus (fun _ => 1 / 4) (fun s => Rabs (s - 1 / 2))); [apply cst|].
      apply (continuity_pt_comp (fun s => s - 1 / 2) Rabs); [|apply Rcontinuity_abs].
      apply derivable_continuous_pt. exists (1 - 0). unfold derivable_pt_abs. dl.
    - apply (ext (fun s => perturbation * u0 * sin (2 * PI * (s + 1 / 4)))); [intros; symmetry; apply shear_v|].
      apply derivable_continuous_pt. exists (perturbation * u0 * (cos (2 * PI * (x + 1 / 4)) * (2 * PI))). unfold derivable_pt_abs. deriv. ring.
    - apply (ext (fun _ => perturbation * u0 * sin (2 * PI * (x + 1 / 4)))); [intros; symmetry; apply shear_v|apply cst].
  Qed.
  Lemma shear_bounds : forall x y t, Rabs (u x y t) <= Rabs u0 /\ Rabs (v x y t) <= Rabs perturbation * Rabs u0.
  Proof.
    intros x y t. rewrite shear_u, shear_v, !Rabs_mult. split.
    - rewrite <- (Rmult_1_r (Rabs u0)) at 2. apply Rmult_le_compat_l; [apply Rabs_pos|]. apply Rabs_le.
      pose proof (tanh_bounds (kappa * (1 / 4 - Rabs (y - 1 / 2)))). lra.
    - rewrite <- (Rmult_1_r (Rabs perturbation * Rabs u0)) at 2.
      apply Rmult_le_compat_l; [apply Rmult_le_pos; apply Rabs_pos|]. apply Rabs_le. apply SIN_bound.
  Qed.
End Shear.

Section Droplet.
  Variables (l h rho_l rho_g W R0 : R) (rho : R -> R -> R).
  Hypothesis Hr : forall x y, droplet_density l h rho_l rho_g W R0 0 x y = Ok (rho x y).
  Definition away (x y : R) : R := sqrt ((x - 1 / 2 * l) ^ 2 + (y - 1 / 2 * h) ^ 2).
  Lemma droplet_value : forall x y, rho x y = 1 / 2 * (rho_l + rho_g) - 1 / 2 * (rho_l - rho_g) * tanh ((away x y - R0) / W).
  Proof.
    intros x y. assert (E : droplet_density l h rho_l rho_g W R0 0 x y =
      Ok (1 / 2 * (rho_l + rho_g) - 1 / 2 * (rho_l - rho_g) * sinh ((away x y - R0) / W) / cosh ((away x y - R0) / W))) by reflexivity.
    rewrite Hr in E. apply (f_equal (fun r => match r with Ok v => v | _ => 0 end)) in E. rewrite E.
    unfold tanh, Rdiv. ring.
  Qed.
  Lemma droplet_between : rho_g < rho_l -> forall x y, rho_g < rho x y < rho_l.
  Proof. intros H x y. rewrite droplet_value. pose proof (tanh_bounds ((away x y - R0) / W)). nra. Qed.
  Lemma droplet_sides : forall x y, rho 0 y = rho l y /\ rho x 0 = rho x h.
  Proof.
    intros x y. rewrite !droplet_value. unfold away. split.
    - replace ((0 - 1 / 2 * l) ^ 2) with ((l - 1 / 2 * l) ^ 2) by field. reflexivity.
    - replace ((0 - 1 / 2 * h) ^ 2) with ((h - 1 / 2 * h) ^ 2) by field. reflexivity.
  Qed.
  Lemma droplet_decreasing : rho_g < rho_l -> 0 < W -> forall x y x' y', away x y < away x' y' -> rho x' y' < rho x y.
  Proof.
    intros H HW x y x' y' D. rewrite !droplet_value.
    assert (T : tanh ((away x y - R0) / W) < tanh ((away x' y' - R0) / W)).
    { apply tanh_increasing. unfold Rdiv. apply Rmult_lt_compat_r; [apply Rinv_0_lt_compat; exact HW|lra]. }
    nra.
  Qed.
  Lemma droplet_interface : rho_g < rho_l -> 0 < W -> forall x y,
    (away x y = R0 -> rho x y = (rho_l + rho_g) / 2) /\ (away x y < R0 -> (rho_l + rho_g) / 2 < rho x y) /\
    (R0 < away x y -> rho x y < (rho_l + rho_g) / 2).
  Proof.
    intros H HW x y. rewrite droplet_value. assert (I : 0 < / W) by (apply Rinv_0_lt_compat; exact HW). repeat split; intros E.
    - rewrite E. replace ((R0 - R0) / W) with 0 by (field; lra). rewrite tanh_0. lra.
    - assert (tanh ((away x y - R0) / W) < 0); [rewrite <- tanh_0; apply tanh_increasing; unfold Rdiv; nra|nra].
    - assert (0 < tanh ((away x y - R0) / W)); [apply tanh_pos; unfold Rdiv; nra|nra].
  Qed.
End Droplet.
