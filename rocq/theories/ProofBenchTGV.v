(** The analytic solutions of the Taylor-Green vortices. *)
From Coq Require Import FunctionalExtensionality.
From Verif Require Import Prelude ModelBenchmarks SpecBenchmarks ProofDeriv.
Local Open Scope R_scope.

Definition kk (L : R) := 2 * PI / L.
Definition tu (nu U k : R) (x y t : R) := U + sin (k * x - U * t) * cos (k * y) * exp (-2 * nu * k * t).
Definition tv (nu U k : R) (x y t : R) := - cos (k * x - U * t) * sin (k * y) * exp (-2 * nu * k * t).
Definition tp (nu U k : R) (x y t : R) := 1 / 4 * (cos (2 * (k * x - U * t)) + cos (2 * (k * y))) * exp (-4 * nu * k * t).

Lemma value_u : forall f x y t, tgv2_velocity f 0 x y t = Ok (tu (tg_nu f) (tg_U f) (kk (tg_L f)) x y t).
Proof.
  intros. unfold tgv2_velocity, tu, kk. do 2 f_equal.
  unfold Rdiv. f_equal; [f_equal; f_equal; ring|f_equal; ring].
Qed.
Lemma value_v : forall f x y t, tgv2_velocity f 1 x y t = Ok (tv (tg_nu f) (tg_U f) (kk (tg_L f)) x y t).
Proof.
  intros. unfold tgv2_velocity, tv, kk. f_equal.
  unfold Rdiv. f_equal; [f_equal; [do 2 f_equal; ring|f_equal; ring]|f_equal; ring].
Qed.
Lemma value_rho : forall f x y t, tg_analytic f = true ->
  tgv2_density f 0 x y t = Ok (1 + tp (tg_nu f) (tg_U f) (kk (tg_L f)) x y t / (tg_cs f * tg_cs f)).
Proof.
  intros f x y t E. unfold tgv2_density, tp, kk. rewrite E. cbv zeta. do 2 f_equal.
  unfold Rdiv. do 2 f_equal; [|f_equal; ring]. do 2 f_equal; f_equal; ring.
Qed.

Section Derivatives.
  Variables (nu U k : R).
  Local Notation e2 t := (exp (-2 * nu * k * t)).
  Local Notation e4 t := (exp (-4 * nu * k * t)).
  Definition tux (x y t : R) := k * cos (k * x - U * t) * cos (k * y) * e2 t.
  Definition tuy (x y t : R) := - k * sin (k * x - U * t) * sin (k * y) * e2 t.
  Definition tut (x y t : R) := (- U * cos (k * x - U * t) - 2 * nu * k * sin (k * x - U * t)) * cos (k * y) * e2 t.
  Definition tuxx (x y t : R) := - k * k * sin (k * x - U * t) * cos (k * y) * e2 t.
  Definition tvx (x y t : R) := k * sin (k * x - U * t) * sin (k * y) * e2 t.
  Definition tvy (x y t : R) := - k * cos (k * x - U * t) * cos (k * y) * e2 t.
  Definition tvt (x y t : R) := (- U * sin (k * x - U * t) + 2 * nu * k * cos (k * x - U * t)) * sin (k * y) * e2 t.
  Definition tvxx (x y t : R) := k * k * cos (k * x - U * t) * sin (k * y) * e2 t.
  Definition tpx (x y t : R) := - (k / 2) * sin (2 * (k * x - U * t)) * e4 t.
  Definition tpy (x y t : R) := - (k / 2) * sin (2 * (k * y)) * e4 t.

  Lemma d_ux : d1 (tu nu U k) tux. Proof. intros x y t. unfold tu, tux. deriv. ring. Qed.
  Lemma d_uy : d2 (tu nu U k) tuy. Proof. intros x y t. unfold tu, tuy. deriv. ring. Qed.
  Lemma d_ut : d3 (tu nu U k) tut. Proof. intros x y t. unfold tu, tut. deriv. ring. Qed.
  Lemma d_uxx : d1 tux tuxx. Proof. intros x y t. unfold tux, tuxx. deriv. ring. Qed.
  Lemma d_uyy : d2 tuy tuxx. Proof. intros x y t. unfold tuy, tuxx. deriv. ring. Qed.
  Lemma d_vx : d1 (tv nu U k) tvx. Proof. intros x y t. unfold tv, tvx. deriv. ring. Qed.
  Lemma d_vy : d2 (tv nu U k) tvy. Proof. intros x y t. unfold tv, tvy. deriv. ring. Qed.
  Lemma d_vt : d3 (tv nu U k) tvt. Proof. intros x y t. unfold tv, tvt. deriv. ring. Qed.
  Lemma d_vxx : d1 tvx tvxx. Proof. intros x y t. unfold tvx, tvxx. deriv. ring. Qed.
  Lemma d_vyy : d2 tvy tvxx. Proof. intros x y t. unfold tvy, tvxx. deriv. ring. Qed.
  Lemma d_px : d1 (tp nu U k) tpx. Proof. intros x y t. unfold tp, tpx. deriv. field. Qed.
  Lemma d_py : d2 (tp nu U k) tpy. Proof. intros x y t. unfold tp, tpy. deriv. field. Qed.
End Derivatives.

Lemma tg_divergence : forall nu U k, divergence_free2 (tu nu U k) (tv nu U k).
Proof.
  intros. exists (tux nu U k), (tvy nu U k). split; [apply d_ux|split; [apply d_vy|]].
  intros. unfold tux, tvy. ring.
Qed.

(** With wave number 1 the fields solve the Navier-Stokes equations. *)
Lemma tg_solves : forall nu U, navier_stokes nu (tu nu U 1) (tv nu U 1) (tp nu U 1).
Proof.
  intros nu U.
  exists (tux nu U 1), (tuy nu U 1), (tut nu U 1), (tuxx nu U 1), (tuxx nu U 1),
         (tvx nu U 1), (tvy nu U 1), (tvt nu U 1), (tvxx nu U 1), (tvxx nu U 1), (tpx nu U 1), (tpy nu 1).
  split; [repeat split; first [apply d_ux|apply d_uy|apply d_ut|apply d_uxx|apply d_uyy]|].
  split; [repeat split; first [apply d_vx|apply d_vy|apply d_vt|apply d_vxx|apply d_vyy]|].
  split; [split; [apply d_px|apply d_py]|].
  intros x y t. unfold tux, tuy, tut, tuxx, tvx, tvy, tvt, tvxx, tpx, tpy, tu, tv.
  replace (exp (-4 * nu * 1 * t)) with (exp (-2 * nu * 1 * t) * exp (-2 * nu * 1 * t))
    by (rewrite <- exp_plus; f_equal; ring).
  rewrite (sin_2a (1 * x - U * t)), (sin_2a (1 * y)).
  set (X := 1 * x - U * t). set (Y := 1 * y). set (E := exp (-2 * nu * 1 * t)).
  pose proof (sin2_cos2 X) as HX. pose proof (sin2_cos2 Y) as HY. unfold Rsqr in *.
  assert (sX : sin X * sin X = 1 - cos X * cos X) by lra.
  assert (sY : sin Y * sin Y = 1 - cos Y * cos Y) by lra.
  repeat split.
  - ring.
  - transitivity (-2 * nu * sin X * cos Y * E + (E * E) * sin X * cos X * (cos Y * cos Y + sin Y * sin Y)); [ring|].
    rewrite sY. field.
  - transitivity (2 * nu * cos X * sin Y * E + (E * E) * sin Y * cos Y * (cos X * cos X + sin X * sin X)); [ring|].
    rewrite sX. field.
Qed.

(** With another wave number they do not: at the crest the decay is wrong. *)
Lemma tg_solves_only : forall nu U k p, nu <> 0 -> k <> 0 -> d1 p (tpx nu U k) ->
  navier_stokes nu (tu nu U k) (tv nu U k) p -> k = 1.
Proof.
  intros nu U k p Hnu Hk Hp (ux & uy & ut & uxx & uyy & vx & vy & vt & vxx & vyy & px & py &
    (D1 & D2 & D3 & D4 & D5) & _ & (D6 & _) & E).
  set (x0 := PI / (2 * k)).
  destruct (E x0 0 0) as [_ [E2 _]].
  rewrite (d1_unique _ _ _ D1 (d_ux nu U k)), (d2_unique _ _ _ D2 (d_uy nu U k)),
    (d3_unique _ _ _ D3 (d_ut nu U k)) in E2.
  rewrite (d1_unique _ _ _ D6 Hp) in E2.
  rewrite (d1_unique _ _ _ D4 (d1_same _ _ _ (fun x y t => eq_sym (d1_unique _ _ _ D1 (d_ux nu U k) x y t)) (d_uxx nu U k))) in E2.
  rewrite (d2_unique _ _ _ D5 (d2_same _ _ _ (fun x y t => eq_sym (d2_unique _ _ _ D2 (d_uy nu U k) x y t)) (d_uyy nu U k))) in E2.
  unfold tux, tuy, tut, tuxx, tpx, tv in E2.
  replace (k * x0 - U * 0) with (PI / 2) in E2 by (unfold x0; field; assumption).
  replace (2 * (PI / 2)) with PI in E2 by field.
  replace (k * 0) with 0 in E2 by ring.
  replace (-2 * nu * k * 0) with 0 in E2 by ring.
  rewrite sin_PI2, cos_PI2, sin_0, cos_0, sin_PI, exp_0 in E2.
  assert (F : (nu * k) * (1 - k) = 0) by lra.
  destruct (Rmult_integral _ _ F) as [G|G]; [|lra].
  destruct (Rmult_integral _ _ G); contradiction.
Qed.

(** A constant pressure does not do. *)
Lemma tg_constant_pressure : forall nu U k c, k <> 0 -> ~ navier_stokes nu (tu nu U k) (tv nu U k) (fun _ _ _ => c).
Proof.
  intros nu U k c Hk (ux & uy & ut & uxx & uyy & vx & vy & vt & vxx & vyy & px & py &
    _ & (D1 & D2 & D3 & D4 & D5) & (_ & D6) & E).
  (* the equation for v at x = 0, where sin X = 0 and cos X = 1, at t = 0 and two values of y *)
  assert (K : forall y, 2 * nu * k * sin (k * y) + k * sin (k * y) * cos (k * y) = 2 * nu * (k * k) * sin (k * y)).
  { intros y. destruct (E 0 y 0) as [_ [_ E3]].
    rewrite (d1_unique _ _ _ D1 (d_vx nu U k)), (d2_unique _ _ _ D2 (d_vy nu U k)),
      (d3_unique _ _ _ D3 (d_vt nu U k)) in E3.
    assert (P : py 0 y 0 = 0) by (eapply dl_unique; [apply D6|apply dl_const]).
    rewrite P in E3.
    rewrite (d1_unique _ _ _ D4 (d1_same _ _ _ (fun x y t => eq_sym (d1_unique _ _ _ D1 (d_vx nu U k) x y t)) (d_vxx nu U k))) in E3.
    rewrite (d2_unique _ _ _ D5 (d2_same _ _ _ (fun x y t => eq_sym (d2_unique _ _ _ D2 (d_vy nu U k) x y t)) (d_vyy nu U k))) in E3.
    unfold tvx, tvy, tvt, tvxx, tu, tv in E3.
    replace (k * 0 - U * 0) with 0 in E3 by ring.
    replace (-2 * nu * k * 0) with 0 in E3 by ring.
    rewrite sin_0, cos_0, exp_0 in E3. lra. }
  pose proof (K (PI / (2 * k))) as K1. pose proof (K (PI / (4 * k))) as K2.
  replace (k * (PI / (2 * k))) with (PI / 2) in K1 by (field; assumption).
  replace (k * (PI / (4 * k))) with (PI / 4) in K2 by (field; assumption).
  rewrite sin_PI2, cos_PI2 in K1.
  assert (S : 0 < sin (PI / 4)) by (apply sin_gt_0; pose proof PI_RGT_0; lra).
  assert (C : 0 < cos (PI / 4)) by (apply cos_gt_0; pose proof PI_RGT_0; lra).
  assert (F : k * (sin (PI / 4) * cos (PI / 4)) = 0).
  { transitivity (sin (PI / 4) * (2 * nu * (k * k) - 2 * nu * k)).
    - lra.
    - replace (2 * nu * (k * k) - 2 * nu * k) with 0 by lra. ring. }
  destruct (Rmult_integral _ _ F) as [G|G]; [contradiction|].
  pose proof (Rmult_lt_0_compat _ _ S C). lra.
Qed.

(** ** Statements about the functions of the benchmark *)

Lemma kk_1 : forall L, L <> 0 -> (kk L = 1 <-> L = 2 * PI).
Proof.
  intros L H. unfold kk. split; intros E.
  - apply (f_equal (fun z => z * L)) in E. replace (2 * PI / L * L) with (2 * PI) in E by (field; assumption). lra.
  - subst. field. exact PI_neq0.
Qed.
Lemma kk_nz : forall L, L <> 0 -> kk L <> 0.
Proof.
  intros L H E. unfold kk in E. apply (f_equal (fun z => z * L)) in E.
  replace (2 * PI / L * L) with (2 * PI) in E by (field; assumption). pose proof PI_RGT_0. lra.
Qed.

Lemma ns_ext : forall nu u v p u' v' p', (forall x y t, u x y t = u' x y t) -> (forall x y t, v x y t = v' x y t) ->
  (forall x y t, p x y t = p' x y t) -> navier_stokes nu u v p -> navier_stokes nu u' v' p'.
Proof.
  intros nu u v p u' v' p' E1 E2 E3 H.
  replace u' with u by (repeat (apply functional_extensionality; intros); apply E1).
  replace v' with v by (repeat (apply functional_extensionality; intros); apply E2).
  replace p' with p by (repeat (apply functional_extensionality; intros); apply E3).
  exact H.
Qed.

Lemma ns_pressure_constant : forall nu u v p c, navier_stokes nu u v p -> navier_stokes nu u v (fun x y t => p x y t + c).
Proof.
  intros nu u v p c (ux & uy & ut & uxx & uyy & vx & vy & vt & vxx & vyy & px & py & A & B & (C1 & C2) & E).
  exists ux, uy, ut, uxx, uyy, vx, vy, vt, vxx, vyy, px, py.
  split; [exact A|split; [exact B|split; [|exact E]]].
  split; intros x y t; (eapply dl_eq; [apply dl_plus; [first [apply C1|apply C2]|apply dl_const]|ring]).
Qed.

Section Flow.
  Variables (f : tgv2) (u v rho : R -> R -> R -> R).
  Hypothesis Hu : forall x y t, tgv2_velocity f 0 x y t = Ok (u x y t).
  Hypothesis Hv : forall x y t, tgv2_velocity f 1 x y t = Ok (v x y t).
  Hypothesis Hr : forall x y t, tgv2_density f 0 x y t = Ok (rho x y t).

  Lemma Eu : forall x y t, tu (tg_nu f) (tg_U f) (kk (tg_L f)) x y t = u x y t.
  Proof. intros. pose proof (Hu x y t) as H. rewrite value_u in H. congruence. Qed.
  Lemma Ev : forall x y t, tv (tg_nu f) (tg_U f) (kk (tg_L f)) x y t = v x y t.
  Proof. intros. pose proof (Hv x y t) as H. rewrite value_v in H. congruence. Qed.
  Lemma Ep : tg_analytic f = true -> tg_cs f <> 0 ->
    forall x y t, tp (tg_nu f) (tg_U f) (kk (tg_L f)) x y t = tg_cs f * tg_cs f * rho x y t - tg_cs f * tg_cs f.
  Proof.
    intros A C x y t. pose proof (Hr x y t) as H. rewrite value_rho in H by exact A.
    injection H; intros <-. field. exact C.
  Qed.

  Lemma taylor_green_divergence : divergence_free2 u v.
  Proof.
    destruct (tg_divergence (tg_nu f) (tg_U f) (kk (tg_L f))) as (ux & vy & A & B & C).
    exists ux, vy. split; [exact (d1_same _ _ _ Eu A)|split; [exact (d2_same _ _ _ Ev B)|exact C]].
  Qed.

  Lemma taylor_green_iff : tg_analytic f = true -> tg_cs f <> 0 -> tg_nu f <> 0 -> tg_L f <> 0 ->
    (navier_stokes (tg_nu f) u v (fun x y t => tg_cs f * tg_cs f * rho x y t) <-> tg_L f = 2 * PI).
  Proof.
    intros A C N L. split.
    - intros H. apply kk_1; [exact L|].
      apply (tg_solves_only (tg_nu f) (tg_U f) (kk (tg_L f)) (tp (tg_nu f) (tg_U f) (kk (tg_L f))));
        [exact N|apply kk_nz; exact L|apply d_px|].
      apply (ns_pressure_constant _ _ _ _ (- (tg_cs f * tg_cs f))) in H.
      revert H. apply ns_ext; intros x y t; [symmetry; apply Eu|symmetry; apply Ev|].
      rewrite (Ep A C). ring.
    - intros E. assert (K : kk (tg_L f) = 1) by (apply kk_1; assumption).
      pose proof (ns_pressure_constant _ _ _ _ (tg_cs f * tg_cs f) (tg_solves (tg_nu f) (tg_U f))) as H.
      revert H. rewrite <- K. apply ns_ext; intros x y t; [apply Eu|apply Ev|].
      rewrite (Ep A C). ring.
  Qed.

  Lemma taylor_green_solves : tg_analytic f = true -> tg_cs f <> 0 -> tg_L f = 2 * PI ->
    navier_stokes (tg_nu f) u v (fun x y t => tg_cs f * tg_cs f * rho x y t).
  Proof.
    intros A C E. assert (L : tg_L f <> 0) by (rewrite E; pose proof PI_RGT_0; lra).
    assert (K : kk (tg_L f) = 1) by (apply kk_1; assumption).
    pose proof (ns_pressure_constant _ _ _ _ (tg_cs f * tg_cs f) (tg_solves (tg_nu f) (tg_U f))) as H.
    revert H. rewrite <- K. apply ns_ext; intros x y t; [apply Eu|apply Ev|].
    rewrite (Ep A C). ring.
  Qed.

  Lemma taylor_green_constant_density : tg_analytic f = false -> tg_L f <> 0 ->
    ~ navier_stokes (tg_nu f) u v (fun x y t => tg_cs f * tg_cs f * rho x y t).
  Proof.
    intros A L H.
    apply (tg_constant_pressure (tg_nu f) (tg_U f) (kk (tg_L f)) (tg_cs f * tg_cs f) (kk_nz _ L)).
    revert H. apply ns_ext; intros x y t; [symmetry; apply Eu|symmetry; apply Ev|].
    pose proof (Hr x y t) as H. unfold tgv2_density in H. rewrite A in H. injection H; intros <-. ring.
  Qed.

  (** Period L in both directions. *)
  Lemma taylor_green_periodic : tg_L f <> 0 -> forall x y t,
    (u (x + tg_L f) y t = u x y t /\ v (x + tg_L f) y t = v x y t /\ rho (x + tg_L f) y t = rho x y t) /\
    (u x (y + tg_L f) t = u x y t /\ v x (y + tg_L f) t = v x y t /\ rho x (y + tg_L f) t = rho x y t).
  Proof.
    intros L x y t.
    assert (A : forall z, kk (tg_L f) * (z + tg_L f) = kk (tg_L f) * z + 2 * PI) by (intros; unfold kk; field; exact L).
    rewrite <- !Eu, <- !Ev. unfold tu, tv. rewrite !A.
    replace (kk (tg_L f) * x + 2 * PI - tg_U f * t) with ((kk (tg_L f) * x - tg_U f * t) + 2 * PI) by ring.
    pose proof (fun z => cos_period z 1) as C. pose proof (fun z => sin_period z 1) as S.
    replace (2 * INR 1 * PI) with (2 * PI) in C, S by (simpl; ring).
    rewrite !C, !S.
    assert (R1 : rho (x + tg_L f) y t = rho x y t /\ rho x (y + tg_L f) t = rho x y t).
    { destruct (tg_analytic f) eqn:T.
      - pose proof (Hr x y t) as H0. pose proof (Hr (x + tg_L f) y t) as H1. pose proof (Hr x (y + tg_L f) t) as H2.
        rewrite value_rho in H0, H1, H2 by exact T.
        unfold tp in H0, H1, H2. rewrite !A in H1, H2.
        replace (2 * (kk (tg_L f) * x + 2 * PI - tg_U f * t)) with (2 * (kk (tg_L f) * x - tg_U f * t) + 2 * INR 2 * PI) in H1 by (simpl; ring).
        replace (2 * (kk (tg_L f) * y + 2 * PI)) with (2 * (kk (tg_L f) * y) + 2 * INR 2 * PI) in H2 by (simpl; ring).
        rewrite cos_period in H1, H2. split; congruence.
      - pose proof (Hr x y t) as H0. pose proof (Hr (x + tg_L f) y t) as H1. pose proof (Hr x (y + tg_L f) t) as H2.
        unfold tgv2_density in H0, H1, H2. rewrite T in H0, H1, H2. split; congruence. }
    tauto.
  Qed.
End Flow.

(** ** Three dimensions *)
Definition u3 (x y z : R) := sin x * cos y * cos z.
Definition v3 (x y z : R) := - cos x * sin y * cos z.
Definition w3 (x y z : R) := 0.
Definition p3 (x y z : R) := 1 / 16 * (cos (2 * x) + cos (2 * y)) * (cos (2 * z) + 2).

Lemma tgv3_divergence : divergence_free3 u3 v3 w3.
Proof.
  exists (fun x y z => cos x * cos y * cos z), (fun x y z => - (cos x * cos y * cos z)), (fun _ _ _ => 0).
  split; [|split; [|split]].
  - intros x y z. unfold u3. deriv. ring.
  - intros x y z. unfold v3. deriv. ring.
  - intros x y z. unfold w3. apply dl_const.
  - intros. ring.
Qed.

Lemma tgv3_poisson : forall c, pressure_poisson u3 v3 w3 (fun x y z => p3 x y z + c).
Proof.
  intros c.
  exists (fun x y z => cos x * cos y * cos z), (fun x y z => - (sin x * sin y * cos z)), (fun x y z => - (sin x * cos y * sin z)),
         (fun x y z => sin x * sin y * cos z), (fun x y z => - (cos x * cos y * cos z)), (fun x y z => cos x * sin y * sin z),
         (fun _ _ _ => 0), (fun _ _ _ => 0), (fun _ _ _ => 0),
         (fun x y z => - (1 / 8) * sin (2 * x) * (cos (2 * z) + 2)),
         (fun x y z => - (1 / 8) * sin (2 * y) * (cos (2 * z) + 2)),
         (fun x y z => - (1 / 8) * (cos (2 * x) + cos (2 * y)) * sin (2 * z)),
         (fun x y z => - (1 / 4) * cos (2 * x) * (cos (2 * z) + 2)),
         (fun x y z => - (1 / 4) * cos (2 * y) * (cos (2 * z) + 2)),
         (fun x y z => - (1 / 4) * (cos (2 * x) + cos (2 * y)) * cos (2 * z)).
  unfold u3, v3, w3, p3.
  repeat (split; [repeat split; intros x y z; cbv beta; deriv; field|]).
  intros x y z. rewrite !cos_2a_cos.
  pose proof (sin2_cos2 x) as HX. pose proof (sin2_cos2 y) as HY. pose proof (sin2_cos2 z) as HZ. unfold Rsqr in *.
  assert (sX : sin x * sin x = 1 - cos x * cos x) by lra.
  assert (sY : sin y * sin y = 1 - cos y * cos y) by lra.
  transitivity (2 * (cos x * cos x * (cos y * cos y) * (cos z * cos z)) - 2 * ((sin x * sin x) * (sin y * sin y) * (cos z * cos z))).
  - rewrite sX, sY. field.
  - ring.
Qed.

Section Flow3.
  Variables (f : tgv3) (u v w rho : R -> R -> R -> R).
  Hypothesis Hu : forall x y z, tgv3_velocity 0 x y z = Ok (u x y z).
  Hypothesis Hv : forall x y z, tgv3_velocity 1 x y z = Ok (v x y z).
  Hypothesis Hw : forall x y z, tgv3_velocity 2 x y z = Ok (w x y z).
  Hypothesis Hr : forall x y z, tgv3_density f 0 x y z = Ok (rho x y z).

  Lemma Fu : u = u3.
  Proof. repeat (apply functional_extensionality; intros). pose proof (Hu x x0 x1) as H. unfold tgv3_velocity in H. unfold u3. congruence. Qed.
  Lemma Fv : v = v3.
  Proof. repeat (apply functional_extensionality; intros). pose proof (Hv x x0 x1) as H. unfold tgv3_velocity in H. unfold v3. congruence. Qed.
  Lemma Fw : w = w3.
  Proof. repeat (apply functional_extensionality; intros). pose proof (Hw x x0 x1) as H. unfold tgv3_velocity in H. unfold w3. congruence. Qed.

  Lemma taylor_green3_divergence : divergence_free3 u v w.
  Proof. rewrite Fu, Fv, Fw. exact tgv3_divergence. Qed.

  Lemma taylor_green3_pressure : t3_analytic f = true -> t3_compressible f = false -> t3_cs f <> 0 ->
    pressure_poisson u v w (fun x y z => t3_cs f * t3_cs f * rho x y z).
  Proof.
    intros A B C. rewrite Fu, Fv, Fw.
    replace (fun x y z => t3_cs f * t3_cs f * rho x y z) with (fun x y z => p3 x y z + t3_cs f * t3_cs f).
    - apply tgv3_poisson.
    - repeat (apply functional_extensionality; intros).
      pose proof (Hr x x0 x1) as H. unfold tgv3_density in H. rewrite A, B in H. injection H; intros <-.
      unfold p3. field. exact C.
  Qed.

  Lemma taylor_green3_compressible : t3_analytic f = true -> t3_compressible f = true -> t3_numerator f <> 0 ->
    pressure_poisson u v w (fun x y z => rho x y z / t3_numerator f).
  Proof.
    intros A B C. rewrite Fu, Fv, Fw.
    replace (fun x y z => rho x y z / t3_numerator f) with (fun x y z => p3 x y z + 1 / t3_numerator f).
    - apply tgv3_poisson.
    - repeat (apply functional_extensionality; intros).
      pose proof (Hr x x0 x1) as H. unfold tgv3_density in H. rewrite A, B in H. injection H; intros <-.
      unfold p3. field. exact C.
  Qed.

  Lemma taylor_green3_periodic : forall x y z,
    (u (x + 2 * PI) y z = u x y z /\ u x (y + 2 * PI) z = u x y z /\ u x y (z + 2 * PI) = u x y z) /\
    (v (x + 2 * PI) y z = v x y z /\ v x (y + 2 * PI) z = v x y z /\ v x y (z + 2 * PI) = v x y z) /\
    (rho (x + 2 * PI) y z = rho x y z /\ rho x (y + 2 * PI) z = rho x y z /\ rho x y (z + 2 * PI) = rho x y z).
  Proof.
    intros x y z. rewrite Fu, Fv. unfold u3, v3.
    pose proof (fun z => cos_period z 1) as C. pose proof (fun z => sin_period z 1) as S.
    pose proof (fun z => cos_period z 2) as C2.
    replace (2 * INR 1 * PI) with (2 * PI) in C, S by (simpl; ring).
    replace (2 * INR 2 * PI) with (4 * PI) in C2 by (simpl; ring).
    rewrite !C, !S.
    assert (C3 : forall a, cos (2 * (a + 2 * PI)) = cos (2 * a)).
    { intros. replace (2 * (a + 2 * PI)) with (2 * a + 4 * PI) by ring. apply C2. }
    assert (R3 : rho (x + 2 * PI) y z = rho x y z /\ rho x (y + 2 * PI) z = rho x y z /\ rho x y (z + 2 * PI) = rho x y z).
    { pose proof (Hr x y z) as H0. pose proof (Hr (x + 2 * PI) y z) as H1.
      pose proof (Hr x (y + 2 * PI) z) as H2. pose proof (Hr x y (z + 2 * PI)) as H3.
      unfold tgv3_density in *. rewrite !C3 in *.
      destruct (t3_analytic f); [|repeat split; congruence].
      destruct (t3_compressible f); repeat split; congruence. }
    tauto.
  Qed.
End Flow3.
