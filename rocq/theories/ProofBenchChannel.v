(** Channel flows: the force of the Poiseuille flow and the inflow of the backward facing step. *)
From Verif Require Import Prelude ModelBenchmarks SpecBenchmarks ProofDeriv ProofSeries ProofBenchCouette.
Local Open Scope R_scope.

(** Two steady flows with the same force are equal. *)
Lemma steady_unique : forall nu force height u w, 0 < height -> nu <> 0 ->
  steady_channel nu force height u -> steady_channel nu force height w -> forall y, 0 <= y <= height -> u y = w y.
Proof.
  intros nu force height u w Hh Hnu (u' & u'' & A & A0 & A1) (w' & w'' & B & B0 & B1).
  assert (E2 : forall y, 0 <= y <= height -> u'' y = w'' y).
  { intros y Hy. destruct (A y Hy) as (_ & _ & P). destruct (B y Hy) as (_ & _ & Q).
    apply (Rmult_eq_reg_l nu); [lra|exact Hnu]. }
  (* difference of first derivatives is constant *)
  assert (C : forall y, 0 <= y <= height -> u' y - w' y = u' 0 - w' 0).
  { intros y Hy.
    assert (D : u' y - w' y = u' 0 - w' 0).
    { apply (same_derivative u' w' w'' 0 height).
      - intros z Hz. rewrite <- E2 by exact Hz. apply A; exact Hz.
      - intros z Hz. apply B; exact Hz.
      - exact Hy. }
    lra. }
  set (c := u' 0 - w' 0) in *.
  assert (D : forall y, 0 <= y <= height -> u y - (w y + c * y) = u 0 - (w 0 + c * 0)).
  { intros y Hy. apply (same_derivative u (fun z => w z + c * z) u' 0 height).
    - intros z Hz. apply A; exact Hz.
    - intros z Hz. eapply dl_eq; [apply (dl_plus w (fun z => c * z)); [apply B; exact Hz|dl]|].
      cbv beta. specialize (C z Hz). lra.
    - exact Hy. }
  assert (c = 0).
  { specialize (D height ltac:(lra)). rewrite A0, A1, B0, B1 in D.
    apply (Rmult_eq_reg_r height); lra. }
  intros y Hy. specialize (D y Hy). rewrite A0, B0, H in D. lra.
Qed.

Definition parabola (uMax height y : R) : R := 4 * uMax * y * (height - y) / (height * height).
Lemma parabola_steady : forall nu uMax height, height <> 0 ->
  steady_channel nu (8 * uMax * nu / (height * height)) height (parabola uMax height).
Proof.
  intros nu uMax height Hh.
  exists (fun y => 4 * uMax * (height - 2 * y) / (height * height)), (fun y => - 8 * uMax / (height * height)).
  split; [|split].
  - intros y _. unfold parabola. split; [|split].
    + deriv. unfold Rdiv. ring.
    + deriv. unfold Rdiv. ring.
    + field. exact Hh.
  - unfold parabola, Rdiv. ring.
  - unfold parabola, Rdiv. ring.
Qed.
Lemma parabola_mean : forall uMax height, 0 < height -> mean_over 0 height (parabola uMax height) (2 / 3 * uMax).
Proof.
  intros uMax height Hh. exists (fun y => 4 * uMax * (height * y * y / 2 - y * y * y / 3) / (height * height)). split.
  - intros y _. unfold parabola. deriv. field. lra.
  - field. lra.
Qed.
Lemma mean_ext : forall a b u w m, (forall y, a <= y <= b -> u y = w y) -> mean_over a b u m -> mean_over a b w m.
Proof.
  intros a b u w m E (W & A & B). exists W. split; [|exact B].
  intros y Hy. rewrite <- E by exact Hy. apply A; exact Hy.
Qed.
Lemma mean_unique : forall a b u m m', a < b -> mean_over a b u m -> mean_over a b u m' -> m = m'.
Proof.
  intros a b u m m' Hab (W & A & <-) (V & B & <-).
  assert (E : W b - V b = W a - V a) by (apply (same_derivative W V u a b A B); lra).
  replace (W b - W a) with (V b - V a) by lra. reflexivity.
Qed.

Lemma poiseuille_bulk : forall nu u_bulk height f u, 0 < height -> nu <> 0 ->
  poiseuille_construct nu u_bulk height true = Ok f ->
  steady_channel (po_nu f) (po_force f) (po_height f) u ->
  mean_over 0 height u u_bulk /\ forall y, 0 <= y <= height -> u y = 6 * u_bulk * y * (height - y) / (height * height).
Proof.
  intros nu ub height f u Hh Hnu E S. unfold poiseuille_construct in E. injection E as <-. cbn [po_nu po_force po_height] in S.
  assert (P : forall y, 0 <= y <= height -> parabola (3 / 2 * ub) height y = u y).
  { intros y Hy. apply (steady_unique nu (8 * (3 / 2 * ub) * nu / (height * height)) height); try assumption.
    apply parabola_steady. lra. }
  split.
  - apply (mean_ext 0 height _ _ _ P). replace ub with (2 / 3 * (3 / 2 * ub)) at 2 by field.
    apply parabola_mean; exact Hh.
  - intros y Hy. rewrite <- P by exact Hy. unfold parabola. field. lra.
Qed.
Lemma poiseuille_exists : forall nu u_bulk height f, 0 < height ->
  poiseuille_construct nu u_bulk height true = Ok f ->
  exists u, steady_channel (po_nu f) (po_force f) (po_height f) u.
Proof.
  intros nu ub height f Hh E. injection E as <-. cbn [po_nu po_force po_height].
  exists (parabola (3 / 2 * ub) height). apply parabola_steady. lra.
Qed.
(** What the analytic solution of the code says is not that flow. *)
Lemma poiseuille_analytic_wrong : forall dim nu u_bulk height f u time, (1 <= dim)%nat -> 0 < height -> nu <> 0 -> u_bulk <> 0 ->
  poiseuille_construct nu u_bulk height true = Ok f ->
  (forall y, poiseuille_velocity dim f 0 y time = Ok (u y)) ->
  ~ steady_channel (po_nu f) (po_force f) (po_height f) u /\ mean_over 0 height u 0.
Proof.
  intros dim nu ub height f u time Hd Hh Hnu Hb E Hu.
  assert (Z : forall y, 0 = u y).
  { intros y. specialize (Hu y). unfold poiseuille_velocity in Hu.
    assert (T : Nat.ltb 0 dim = true) by (apply Nat.ltb_lt; lia). rewrite T in Hu. injection Hu as Hu. exact Hu. }
  assert (M : mean_over 0 height u 0).
  { apply (mean_ext 0 height (fun _ => 0)); [intros; apply Z|]. exists (fun _ => 0). split; [intros; apply dl_const|field; lra]. }
  split; [|exact M]. intros S.
  destruct (poiseuille_bulk nu ub height f u Hh Hnu E S) as [M' _].
  apply Hb. apply (mean_unique 0 height u); assumption.
Qed.

(** ** Backward facing step *)
Lemma bfs_inflow_profile : forall h_step h_domain u_av u, h_step < h_domain ->
  (forall y, bfs_inflow h_step h_domain u_av 0 0 y = Ok (u y)) ->
  u h_step = 0 /\ u h_domain = 0 /\ mean_over h_step h_domain u u_av /\
  (0 <= u_av -> forall y, h_step <= y <= h_domain -> 0 <= u y <= 3 / 2 * u_av).
Proof.
  intros a b ua u H Hu.
  assert (E : forall y, - ua * (3 / 2) * 4 * (y - b) * (y - a) / (b - a) ^ 2 = u y).
  { intros y. specialize (Hu y). cbn [bfs_inflow] in Hu. congruence. }
  assert (Hd : 0 < (b - a) ^ 2) by (apply pow_lt; lra).
  split; [rewrite <- E; field; lra|split; [rewrite <- E; field; lra|split]].
  - apply (mean_ext a b (fun y => - ua * (3 / 2) * 4 * (y - b) * (y - a) / (b - a) ^ 2)); [intros; apply E|].
    exists (fun y => - ua * (3 / 2) * 4 * ((y - a) * (y - a) * (y - a) / 3 - (b - a) * (y - a) * (y - a) / 2) / (b - a) ^ 2).
    split.
    + intros y _. deriv. field. lra.
    + field. lra.
  - intros Ha y Hy. rewrite <- E.
    replace (- ua * (3 / 2) * 4 * (y - b) * (y - a) / (b - a) ^ 2) with ((3 / 2 * ua) * (4 * (b - y) * (y - a) / (b - a) ^ 2)) by (field; lra).
    assert (0 <= 4 * (b - y) * (y - a) / (b - a) ^ 2 <= 1).
    { split.
      - unfold Rdiv. apply Rmult_le_pos; [apply Rmult_le_pos; lra|left; apply Rinv_0_lt_compat; exact Hd].
      - apply (Rmult_le_reg_r ((b - a) ^ 2)); [exact Hd|].
        replace (4 * (b - y) * (y - a) / (b - a) ^ 2 * (b - a) ^ 2) with (4 * (b - y) * (y - a)) by (field; lra).
        pose proof (pow2_ge_0 ((b - y) - (y - a))). nra. }
    nra.
Qed.

Lemma bfs_construct_UB : forall a b c d, bfs_construct a b c d = UB.
Proof. reflexivity. Qed.

(** ** Three-dimensional Couette flow: the plate moves at height 1, the formula puts it at height L. *)
Lemma couette3_start : forall f x y, 1 + 1 / 100000 < co_L f -> co_t0 f < 1 / 100000 ->
  couette3_velocity f 0 x y (couette3_plate f) 0 = Ok 0.
Proof.
  intros f x y HL Ht. unfold couette3_velocity, couette_profile, couette3_plate. cbv zeta.
  destruct (Rlt_dec (0 + co_t0 f) (1 / 100000)); [|lra].
  destruct (Rlt_dec 1 (co_L f - 1 / 100000)); [reflexivity|lra].
Qed.
