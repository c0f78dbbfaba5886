(** Flows around obstacles. *)
From Verif Require Import Prelude ModelObstacles SpecObstacles ProofDeriv ProofShocks2.
Local Open Scope R_scope.

Definition far (x y : R) := (97 / 100) * (97 / 100) < x * x + y * y.

Lemma rle x y : (97 / 100) * (97 / 100) <= x * x + y * y -> 97 / 100 <= sqrt (x * x + y * y).
Proof. intros H. rewrite <- (sqrt_square (97 / 100)) by lra. apply sqrt_le_1_alt. exact H. Qed.

Lemma rle' x y : 97 / 100 <= sqrt (x * x + y * y) -> (97 / 100) * (97 / 100) <= x * x + y * y.
Proof.
  intros H. rewrite <- (sqrt_sqrt (x * x + y * y)) by nra. apply Rmult_le_compat; lra.
Qed.

Definition cu (U x y : R) := U - U / 4 * ((x * x - y * y) / ((x * x + y * y) * (x * x + y * y))).
Definition cv (U x y : R) := - (U / 2) * (x * y / ((x * x + y * y) * (x * x + y * y))).
Definition cr (U x y : R) := 1 + U * U / 8 * ((1 / 2 * (x * x - y * y) - 1 / 16) / ((x * x + y * y) * (x * x + y * y))).

Lemma cylinder_u0 U x y : (97 / 100) * (97 / 100) <= x * x + y * y -> cylinder_u U x y 0 = Ok (cu U x y).
Proof.
  intros H. unfold cylinder_u. cbn [Nat.ltb Nat.leb Nat.eqb]. destruct (Rle_dec (97 / 100) (sqrt (x * x + y * y))) as [Hr|Hr]; [|exfalso; apply Hr, rle, H].
  f_equal. unfold cu. assert (Hq : sqrt (x * x + y * y) * sqrt (x * x + y * y) = x * x + y * y) by (apply sqrt_sqrt; nra).
  set (r := sqrt (x * x + y * y)) in *.
  transitivity (U * ((x * x + y * y) / (r * r)) - U / 4 * ((x * x - y * y) / (r * r * (r * r)))); [field; lra|].
  rewrite <- Hq. field. lra.
Qed.

Lemma cylinder_u1 U x y : (97 / 100) * (97 / 100) <= x * x + y * y -> cylinder_u U x y 1 = Ok (cv U x y).
Proof.
  intros H. unfold cylinder_u. cbn [Nat.ltb Nat.leb Nat.eqb]. destruct (Rle_dec (97 / 100) (sqrt (x * x + y * y))) as [Hr|Hr]; [|exfalso; apply Hr, rle, H].
  f_equal. unfold cv. assert (Hq : sqrt (x * x + y * y) * sqrt (x * x + y * y) = x * x + y * y) by (apply sqrt_sqrt; nra).
  set (r := sqrt (x * x + y * y)) in *. rewrite <- Hq. field. lra.
Qed.

Lemma cylinder_r U x y : (97 / 100) * (97 / 100) <= x * x + y * y -> cylinder_rho U x y = Ok (cr U x y).
Proof.
  intros H. unfold cylinder_rho. destruct (Rle_dec (97 / 100) (sqrt (x * x + y * y))) as [Hr|Hr]; [|exfalso; apply Hr, rle, H].
  f_equal. unfold cr. assert (Hq : sqrt (x * x + y * y) * sqrt (x * x + y * y) = x * x + y * y) by (apply sqrt_sqrt; nra).
  set (r := sqrt (x * x + y * y)) in *. rewrite <- Hq. field. lra.
Qed.

(** Neighbours of a point outside are outside. *)
Lemma near x y : far x y -> exists a b, a < x < b /\ forall s, a < s < b -> (97 / 100) * (97 / 100) <= s * s + y * y.
Proof.
  unfold far. intros H. set (c := (97 / 100) * (97 / 100)) in *. set (d := (x * x + y * y - c) / (2 * Rabs x + 1)).
  assert (Hx : 0 <= Rabs x) by apply Rabs_pos.
  assert (Hd : 0 < d) by (apply Rdiv_lt_0_compat; [clear - H; lra|clear - Hx; lra]).
  assert (He : d * (2 * Rabs x + 1) = x * x + y * y - c) by (unfold d; field; clear - Hx; lra).
  clearbody d c. exists (x - d), (x + d). split; [lra|]. intros s Hs.
  assert (Ha : Rabs (x * (s - x)) <= Rabs x * d).
  { rewrite Rabs_mult. apply Rmult_le_compat_l; [exact Hx|]. apply Rabs_le. lra. }
  pose proof (Rle_abs (- (x * (s - x)))) as Hb. rewrite Rabs_Ropp in Hb.
  assert (Hsq : 0 <= (s - x) * (s - x)) by exact (Rle_0_sqr (s - x)).
  replace (s * s) with (x * x + 2 * (x * (s - x)) + (s - x) * (s - x)) by ring. lra.
Qed.

Lemma far_sym x y : far x y -> far y x.
Proof. unfold far. lra. Qed.

Lemma dl_div f g x f' g' : g x <> 0 -> derivable_pt_lim f x f' -> derivable_pt_lim g x g' ->
  derivable_pt_lim (fun s => f s / g s) x ((f' * g x - g' * f x) / (g x * g x)).
Proof. intros Hg Hf Hg'. exact (derivable_pt_lim_div f g x f' g' Hf Hg' Hg). Qed.

Section Derivatives.
  Variables (U x y : R).
  Hypothesis F : far x y.
  Notation q := (x * x + y * y).
  Lemma qpos : 0 < q.
  Proof. unfold far in F. lra. Qed.

Ltac quo :=
    lazymatch goal with
    | |- derivable_pt_lim (fun s => @?f s + @?g s) ?x _ => apply (dl_plus f g x); quo
    | |- derivable_pt_lim (fun s => @?f s - @?g s) ?x _ => apply (dl_minus f g x); quo
    | |- derivable_pt_lim (fun s => ?c * @?g s) ?x _ => apply (dl_mult (fun _ => c) g x); quo
    | |- derivable_pt_lim (fun s => @?f s / @?g s) ?x _ => apply (dl_div f g x); [pose proof qpos; cbv beta; nra|dl|dl]
    | |- _ => dl
    end.
  Ltac quotient := eapply dl_eq; [quo|cbv beta; field; pose proof qpos; lra].

  Lemma cu_x : dx (cu U) x y (- (U / 2) * x * (3 * y * y - x * x) / (q * q * q)).
  Proof. unfold dx, cu. quotient. Qed.
  Lemma cu_y : dy (cu U) x y (U / 2 * y * (3 * x * x - y * y) / (q * q * q)).
  Proof. unfold dy, cu. quotient. Qed.
  Lemma cv_x : dx (cv U) x y (U / 2 * y * (3 * x * x - y * y) / (q * q * q)).
  Proof. unfold dx, cv. quotient. Qed.
  Lemma cv_y : dy (cv U) x y (U / 2 * x * (3 * y * y - x * x) / (q * q * q)).
  Proof. unfold dy, cv. quotient. Qed.
  Lemma cr_x : dx (cr U) x y (U * U / 8 * x * (3 * y * y - x * x + 1 / 4) / (q * q * q)).
  Proof. unfold dx, cr. quotient. Qed.
  Lemma cr_y : dy (cr U) x y (U * U / 8 * y * (y * y - 3 * x * x + 1 / 4) / (q * q * q)).
  Proof. unfold dy, cr. quotient. Qed.

  Lemma local_x f g d : (forall a b, (97 / 100) * (97 / 100) <= a * a + b * b -> f a b = g a b) -> dx f x y d -> dx g x y d.
  Proof.
    intros H Hd. destruct (near x y F) as (a & b & Hab & Hs). apply (dl_local (fun s => f s y) (fun s => g s y) x d a b Hab); [|exact Hd].
    intros s Hs'. apply H, Hs, Hs'.
  Qed.
  Lemma local_y f g d : (forall a b, (97 / 100) * (97 / 100) <= a * a + b * b -> f a b = g a b) -> dy f x y d -> dy g x y d.
  Proof.
    intros H Hd. destruct (near y x (far_sym x y F)) as (a & b & Hab & Hs). apply (dl_local (fun s => f x s) (fun s => g x s) y d a b Hab); [|exact Hd].
    intros s Hs'. apply H. specialize (Hs s Hs'). lra.
  Qed.

  Lemma val_u a b : (97 / 100) * (97 / 100) <= a * a + b * b -> cu U a b = val (cylinder_u U a b 0).
  Proof. intros H. rewrite cylinder_u0 by exact H. reflexivity. Qed.
  Lemma val_v a b : (97 / 100) * (97 / 100) <= a * a + b * b -> cv U a b = val (cylinder_u U a b 1).
  Proof. intros H. rewrite cylinder_u1 by exact H. reflexivity. Qed.
  Lemma val_r a b : (97 / 100) * (97 / 100) <= a * a + b * b -> cr U a b = val (cylinder_rho U a b).
  Proof. intros H. rewrite cylinder_r by exact H. reflexivity. Qed.

  Notation u := (fun a b => val (cylinder_u U a b 0)).
  Notation v := (fun a b => val (cylinder_u U a b 1)).
  Notation rho := (fun a b => val (cylinder_rho U a b)).

  Lemma cylinder_potential : potential_at u v x y.
  Proof.
    do 4 eexists. split; [apply (local_x (cu U) u); [exact val_u|exact cu_x]|]. split; [apply (local_y (cu U) u); [exact val_u|exact cu_y]|].
    split; [apply (local_x (cv U) v); [exact val_v|exact cv_x]|]. split; [apply (local_y (cv U) v); [exact val_v|exact cv_y]|].
    split; [|reflexivity]. field. pose proof qpos; lra.
  Qed.

  (** The residuals of the momentum equations. *)
  Lemma cylinder_euler c2 : steady_euler_at c2 u v rho x y <->
    (c2 - 4) * (U * U) * x * (3 * y * y - x * x + 1 / 4) = 0 /\ (c2 - 4) * (U * U) * y * (y * y - 3 * x * x + 1 / 4) = 0.
  Proof.
    pose proof qpos as Hq. assert (Hf : (97 / 100) * (97 / 100) <= x * x + y * y) by (unfold far in F; lra).
    assert (A1 : dx u x y (- (U / 2) * x * (3 * y * y - x * x) / (q * q * q))) by (apply (local_x (cu U) u); [exact val_u|exact cu_x]).
    assert (A2 : dy u x y (U / 2 * y * (3 * x * x - y * y) / (q * q * q))) by (apply (local_y (cu U) u); [exact val_u|exact cu_y]).
    assert (A3 : dx v x y (U / 2 * y * (3 * x * x - y * y) / (q * q * q))) by (apply (local_x (cv U) v); [exact val_v|exact cv_x]).
    assert (A4 : dy v x y (U / 2 * x * (3 * y * y - x * x) / (q * q * q))) by (apply (local_y (cv U) v); [exact val_v|exact cv_y]).
    assert (A5 : dx rho x y (U * U / 8 * x * (3 * y * y - x * x + 1 / 4) / (q * q * q))) by (apply (local_x (cr U) rho); [exact val_r|exact cr_x]).
    assert (A6 : dy rho x y (U * U / 8 * y * (y * y - 3 * x * x + 1 / 4) / (q * q * q))) by (apply (local_y (cr U) rho); [exact val_r|exact cr_y]).
    assert (E1 : u x y * (- (U / 2) * x * (3 * y * y - x * x) / (q * q * q)) + v x y * (U / 2 * y * (3 * x * x - y * y) / (q * q * q))
                 + c2 * (U * U / 8 * x * (3 * y * y - x * x + 1 / 4) / (q * q * q))
                 = (c2 - 4) * (U * U) * x * (3 * y * y - x * x + 1 / 4) / (8 * (q * q * q))).
    { cbv beta. rewrite <- val_u, <- val_v by exact Hf. unfold cu, cv. field. lra. }
    assert (E2 : u x y * (U / 2 * y * (3 * x * x - y * y) / (q * q * q)) + v x y * (U / 2 * x * (3 * y * y - x * x) / (q * q * q))
                 + c2 * (U * U / 8 * y * (y * y - 3 * x * x + 1 / 4) / (q * q * q))
                 = (c2 - 4) * (U * U) * y * (y * y - 3 * x * x + 1 / 4) / (8 * (q * q * q))).
    { cbv beta. rewrite <- val_u, <- val_v by exact Hf. unfold cu, cv. field. lra. }
    assert (Hq3 : 0 < q * q * q) by (apply Rmult_lt_0_compat; [apply Rmult_lt_0_compat|]; exact Hq).
    assert (Z : forall t, t / (8 * (q * q * q)) = 0 <-> t = 0).
    { intros t. split; intros H; [|rewrite H; unfold Rdiv; ring].
      replace t with (t / (8 * (q * q * q)) * (8 * (q * q * q))) by (field; lra). rewrite H. ring. }
    split.
    - intros (ux & uy & vx & vy & rx & ry & D1 & D2 & D3 & D4 & D5 & D6 & _ & M1 & M2).
      rewrite (dl_unique _ _ _ _ D1 A1), (dl_unique _ _ _ _ D2 A2), (dl_unique _ _ _ _ D5 A5), E1 in M1.
      rewrite (dl_unique _ _ _ _ D3 A3), (dl_unique _ _ _ _ D4 A4), (dl_unique _ _ _ _ D6 A6), E2 in M2.
      split; apply Z; assumption.
    - intros [M1 M2]. do 6 eexists. do 6 (split; [eassumption|]). split; [field; lra|].
      rewrite E1, E2. split; apply Z; assumption.
  Qed.
End Derivatives.

Lemma euler_iff c2 U : (forall x y, far x y -> steady_euler_at c2 (fun a b => val (cylinder_u U a b 0)) (fun a b => val (cylinder_u U a b 1)) (fun a b => val (cylinder_rho U a b)) x y)
  <-> c2 = 4 \/ U = 0.
Proof.
  split.
  - intros H. assert (F : far 1 0) by (unfold far; lra). destruct (proj1 (cylinder_euler U 1 0 F c2) (H 1 0 F)) as [E _].
    assert (E' : (c2 - 4) * (U * U) = 0) by lra. destruct (Rmult_integral _ _ E') as [E1|E1]; [left; lra|right].
    destruct (Rmult_integral _ _ E1); assumption.
  - intros H x y F. apply (cylinder_euler U x y F). destruct H as [->| ->]; split; ring.
Qed.

Lemma bernoulli U x y : (97 / 100) * (97 / 100) <= x * x + y * y ->
  exists u v rho, cylinder_u U x y 0 = Ok u /\ cylinder_u U x y 1 = Ok v /\ cylinder_rho U x y = Ok rho /\
    4 * (rho - 1) + (u * u + v * v) / 2 = U * U / 2 /\
    (u - U) * (u - U) + v * v = (U / (4 * (x * x + y * y))) * (U / (4 * (x * x + y * y))) /\
    x * u + y * v = U * x * (1 - 1 / (4 * (x * x + y * y))).
Proof.
  intros H. exists (cu U x y), (cv U x y), (cr U x y). rewrite cylinder_u0, cylinder_u1, cylinder_r by exact H.
  do 3 (split; [reflexivity|]). unfold cu, cv, cr. split; [field; lra|]. split; [field; lra|]. field; lra.
Qed.

Lemma inside_throws U x y c : x * x + y * y < (97 / 100) * (97 / 100) -> cylinder_u U x y c = Throw /\ cylinder_rho U x y = Throw.
Proof.
  intros H. unfold cylinder_u, cylinder_rho. destruct (Rle_dec (97 / 100) (sqrt (x * x + y * y))) as [Hr|Hr]; [apply rle' in Hr; lra|].
  split; [destruct (Nat.ltb c 2); reflexivity|reflexivity].
Qed.

(** Chords of the circle. *)
Lemma chord (a b t : R) : Rabs (b - a) <= 2 * PI / INR cylinder_cells -> 0 <= t <= 1 ->
  (97 / 100) * (97 / 100) <= ((1 - t) * cos a + t * cos b) * ((1 - t) * cos a + t * cos b) + ((1 - t) * sin a + t * sin b) * ((1 - t) * sin a + t * sin b).
Proof.
  intros Hab Ht. replace (INR cylinder_cells) with 32 in Hab by (unfold cylinder_cells; simpl; ring).
  replace (((1 - t) * cos a + t * cos b) * ((1 - t) * cos a + t * cos b) + ((1 - t) * sin a + t * sin b) * ((1 - t) * sin a + t * sin b))
    with ((1 - t) * (1 - t) * (Rsqr (sin a) + Rsqr (cos a)) + t * t * (Rsqr (sin b) + Rsqr (cos b)) + 2 * t * (1 - t) * (cos b * cos a + sin b * sin a)) by (unfold Rsqr; ring).
  rewrite !sin2_cos2, <- cos_minus.
  assert (Hc : 1 - (1 / 8) * (1 / 8) * 2 <= cos (b - a)).
  { replace (b - a) with (2 * ((b - a) / 2)) by field. rewrite cos_2a_sin.
    assert (Hs : Rabs (sin ((b - a) / 2)) <= 1 / 8).
    { apply Rle_trans with (Rabs ((b - a) / 2)).
      - set (z := (b - a) / 2). destruct (Rle_lt_dec 0 z) as [Hz|Hz].
        + rewrite (Rabs_right z) by lra. destruct (Req_dec z 0) as [->|Hn]; [rewrite sin_0, Rabs_R0; lra|].
          apply Rabs_le. assert (z <= PI).
          { unfold z in *. pose proof PI_RGT_0. pose proof (Rle_abs (b - a)). lra. }
          split; [|left; apply sin_lt_x; lra]. assert (0 <= sin z) by (apply sin_ge_0; lra). lra.
        + rewrite (Rabs_left z) by lra. rewrite <- Rabs_Ropp, <- sin_neg. apply Rabs_le.
          assert (- z <= PI).
          { unfold z in *. pose proof PI_RGT_0. pose proof (Rle_abs (- (b - a))) as Q. rewrite Rabs_Ropp in Q. lra. }
          split; [|left; apply sin_lt_x; lra]. assert (0 <= sin (- z)) by (apply sin_ge_0; lra). lra.
      - unfold Rdiv at 1. rewrite Rabs_mult, (Rabs_right (/ 2)) by lra.
        pose proof PI_4. lra. }
    assert (sin ((b - a) / 2) * sin ((b - a) / 2) <= 1 / 8 * (1 / 8)).
    { rewrite <- (Rabs_right (sin ((b - a) / 2) * sin ((b - a) / 2))) by (apply Rle_ge; nra). rewrite Rabs_mult.
      apply Rmult_le_compat; try apply Rabs_pos; exact Hs. }
    lra. }
  assert (W0 : 0 <= t * (1 - t)) by (apply Rmult_le_pos; lra).
  assert (W1 : t * (1 - t) <= 1 / 4) by (pose proof (Rle_0_sqr (t - 1 / 2)) as Q; unfold Rsqr in Q; lra).
  assert (W2 : t * (1 - t) * (1 - 1 / 8 * (1 / 8) * 2) <= t * (1 - t) * cos (b - a)) by (apply Rmult_le_compat_l; assumption).
  lra.
Qed.

(** Mach and Reynolds numbers. *)
Lemma sqrt3 : 0 < sqrt 3.
Proof. apply sqrt_lt_R0. lra. Qed.
Lemma sqrt14 : 0 < sqrt (14 / 10 * 1).
Proof. apply sqrt_lt_R0. lra. Qed.

Lemma step9_mach Ma c : mach (step9_velocity Ma c) (sound_speed step9_scaling step9_gamma step9_T c) = Ma.
Proof.
  unfold mach, sound_speed, step9_velocity, step9_scaling, step9_gamma, step9_T. pose proof sqrt3. pose proof sqrt14.
  destruct c; field; repeat split; lra.
Qed.

Lemma step9_print Ma c : step9_printed Ma c = if c then Ma else Ma / sqrt (step9_gamma * step9_T).
Proof.
  unfold step9_printed, step9_velocity, step9_scaling, step9_gamma, step9_T. pose proof sqrt3. pose proof sqrt14.
  destruct c; field; repeat split; lra.
Qed.

Lemma step9_reynolds Ma Re c : Ma <> 0 -> Re <> 0%Z ->
  reynolds (step9_velocity Ma c) cylinder_radius (step9_viscosity Ma Re c) = IZR Re /\
  reynolds (step9_velocity Ma c) (2 * cylinder_radius) (step9_viscosity Ma Re c) = 2 * IZR Re.
Proof.
  intros HM HR. assert (Hr : IZR Re <> 0) by (apply not_0_IZR; exact HR).
  assert (Hu : step9_velocity Ma c <> 0).
  { unfold step9_velocity, step9_gamma, step9_T. pose proof sqrt3. pose proof sqrt14.
    assert (1 / sqrt 3 <> 0) by (unfold Rdiv; rewrite Rmult_1_l; apply Rinv_neq_0_compat; lra).
    destruct c; repeat apply Rmult_integral_contrapositive_currified; try assumption; lra. }
  unfold reynolds, step9_viscosity, cylinder_radius. split; field; auto.
Qed.

Lemma sphere_numbers Ma Re : 0 < Ma -> Re <> 0%Z -> exists U s nu, step_sphere Ma Re true = Some (U, s, nu) /\
  mach U (sound_speed s step_sphere_gamma 1 true) = Ma /\ reynolds U (2 * sphere_radius) nu = IZR Re.
Proof.
  intros HM HR. unfold step_sphere. cbn [negb]. do 3 eexists. split; [reflexivity|].
  assert (Hr : IZR Re <> 0) by (apply not_0_IZR; exact HR). pose proof sqrt3. pose proof sqrt14 as H14.
  unfold mach, sound_speed, reynolds, step_sphere_gamma, sphere_radius. rewrite Rmult_1_r in *. split; field; repeat split; lra.
Qed.

(** Blocks. *)
Lemma blocks_cover x y z : -2 <= x <= 8 -> -5 <= y <= 5 -> -5 <= z <= 5 ->
  in_box (-1, 1)%Z (-1, 1)%Z (-1, 1)%Z x y z \/ exists i j k, In (i, j, k) sphere_blocks /\ in_box i j k x y z.
Proof.
  intros Hx Hy Hz. unfold in_box.
  assert (X : exists i, In i sphere_lengths /\ IZR (fst i) <= x <= IZR (snd i)).
  { destruct (Rle_dec x (-1)); [exists (-2, -1)%Z|destruct (Rle_dec x 1); [exists (-1, 1)%Z|destruct (Rle_dec x 3); [exists (1, 3)%Z|exists (3, 8)%Z]]];
      (split; [unfold sphere_lengths; cbn; tauto|cbn [fst snd]; lra]). }
  assert (Y : forall w, -5 <= w <= 5 -> exists i, In i sphere_sizes /\ IZR (fst i) <= w <= IZR (snd i)).
  { intros w Hw. destruct (Rle_dec w (-1)); [exists (-5, -1)%Z|destruct (Rle_dec w 1); [exists (-1, 1)%Z|exists (1, 5)%Z]];
      (split; [unfold sphere_sizes; cbn; tauto|cbn [fst snd]; lra]). }
  destruct X as (i & Hi & Xi). destruct (Y y Hy) as (j & Hj & Yj). destruct (Y z Hz) as (k & Hk & Zk).
  destruct (skipped i j k) eqn:E.
  - left. unfold skipped in E. apply andb_true_iff in E. destruct E as [E E3]. apply andb_true_iff in E. destruct E as [E1 E2].
    unfold sphere_lengths, sphere_sizes, sphere_inlet, sphere_outlet, sphere_width in *.
    assert (i = (-1, 1)%Z) by (cbn in Hi; repeat destruct Hi as [<-|Hi]; try discriminate; try reflexivity; destruct Hi).
    assert (j = (-1, 1)%Z) by (cbn in Hj; repeat destruct Hj as [<-|Hj]; try discriminate; try reflexivity; destruct Hj).
    assert (k = (-1, 1)%Z) by (cbn in Hk; repeat destruct Hk as [<-|Hk]; try discriminate; try reflexivity; destruct Hk).
    subst. tauto.
  - right. exists i, j, k. split; [|tauto]. unfold sphere_blocks. apply in_flat_map. exists i. split; [exact Hi|].
    apply in_flat_map. exists j. split; [exact Hj|]. apply in_flat_map. exists k. split; [exact Hk|]. rewrite E. left. reflexivity.
Qed.

Definition apart1 (a b : Z * Z) : bool := (Z.leb (snd a) (fst b) || Z.leb (snd b) (fst a))%bool.
Definition apart (a b : block) : bool :=
  let '(i, j, k) := a in let '(i', j', k') := b in (apart1 i i' || apart1 j j' || apart1 k k')%bool.

Fixpoint pairwise {A} (p : A -> A -> bool) (l : list A) : bool :=
  match l with [] => true | a :: l' => forallb (p a) l' && pairwise p l' end.

Lemma all_apart : pairwise apart (((-1, 1), (-1, 1), (-1, 1))%Z :: sphere_blocks) = true.
Proof. vm_compute. reflexivity. Qed.

Lemma apart1_sound a b x : apart1 a b = true -> IZR (fst a) < x < IZR (snd a) -> IZR (fst b) < x < IZR (snd b) -> False.
Proof.
  unfold apart1. intros H Ha Hb. apply orb_true_iff in H. destruct H as [H|H]; apply Z.leb_le in H; apply IZR_le in H; lra.
Qed.

Lemma apart_sound i j k i' j' k' x y z : apart (i, j, k) (i', j', k') = true -> inside_box i j k x y z -> inside_box i' j' k' x y z -> False.
Proof.
  unfold apart, inside_box. intros H (A1 & A2 & A3) (B1 & B2 & B3). apply orb_true_iff in H. destruct H as [H|H]; [apply orb_true_iff in H; destruct H as [H|H]|].
  - exact (apart1_sound _ _ _ H A1 B1).
  - exact (apart1_sound _ _ _ H A2 B2).
  - exact (apart1_sound _ _ _ H A3 B3).
Qed.

Lemma pairwise_nth {A} (p : A -> A -> bool) l : pairwise p l = true -> forall m n a b, (m < n)%nat -> nth_error l m = Some a -> nth_error l n = Some b -> p a b = true.
Proof.
  induction l as [|c l IH]; intros H m n a b Hmn Ha Hb; [destruct m; discriminate|]. cbn in H. apply andb_true_iff in H. destruct H as [H1 H2].
  destruct n as [|n]; [lia|]. destruct m as [|m]; cbn in Ha, Hb.
  - injection Ha as <-. rewrite forallb_forall in H1. apply H1. exact (nth_error_In _ _ Hb).
  - apply (IH H2 m n); [lia|assumption|assumption].
Qed.

Lemma blocks_disjoint m n i j k i' j' k' x y z : (m < n)%nat ->
  nth_error (((-1, 1), (-1, 1), (-1, 1))%Z :: sphere_blocks) m = Some (i, j, k) -> nth_error (((-1, 1), (-1, 1), (-1, 1))%Z :: sphere_blocks) n = Some (i', j', k') ->
  inside_box i j k x y z -> inside_box i' j' k' x y z -> False.
Proof. intros Hmn Ha Hb. apply apart_sound. exact (pairwise_nth apart _ all_apart m n _ _ Hmn Ha Hb). Qed.
