(** The velocity of the vortex, and examples. *)
From Verif Require Import Prelude SpecBenchmarks ProofDeriv ProofBenchGrid ModelShocks SpecShocks ProofShocks ProofShocks2.
Local Open Scope R_scope.

Lemma vortex_velocity ma x y : 0 < radius x y <= 5 -> 0 <= svi_temperature ma x y -> exists a b,
  svi_velocity ma x y 0 = Ok (ramp svi_steepness svi_shockPosition svi_velocityLeft svi_velocityRight x + a) /\ svi_velocity ma x y 1 = Ok b /\
  a * (x - 32) + b * (y - 12) = 0 /\
  a * a + b * b = ma * ma * (14 / 10 * svi_temperature ma x y / 3) * (radius x y * radius x y) * exp (1 - radius x y * radius x y).
Proof.
  intros Hr HT. set (r := radius x y) in *. set (T := svi_temperature ma x y) in *.
  assert (Er : r * r = x_rel x * x_rel x + y_rel y * y_rel y).
  { unfold r, radius. apply sqrt_sqrt. pose proof (Rle_0_sqr (x_rel x)) as A. pose proof (Rle_0_sqr (y_rel y)) as B. unfold Rsqr in A, B. lra. }
  assert (V : vortex_speed ma T * vortex_speed ma T = ma * ma * (14 / 10 * T / 3)).
  { transitivity (ma * ma * (14 / 10) * T / 3); [|field]. rewrite <- speed_square by exact HT. unfold vortex_speed. assert (0 < sqrt 3) by (apply sqrt_lt_R0; lra). field. lra. }
  assert (B : exp ((1 - r * r) / 2) * exp ((1 - r * r) / 2) = exp (1 - r * r)) by (rewrite <- exp_plus; f_equal; field).
  exists (- (r * vortex_speed ma T * (y_rel y / r) * exp ((1 - r * r) / 2))), (r * vortex_speed ma T * (x_rel x / r) * exp ((1 - r * r) / 2)).
  unfold svi_velocity. fold r T. cbv zeta. destruct (Rle_dec r 5); [|lra]. destruct (Req_EM_T r 0); [lra|]. destruct (Rlt_dec T 0); [lra|].
  split; [reflexivity|]. split; [f_equal; ring|]. split.
  - unfold x_rel, y_rel, svi_shockPosition, svi_vortexOffset. field. lra.
  - transitivity ((vortex_speed ma T * vortex_speed ma T) * (x_rel x * x_rel x + y_rel y * y_rel y) * (exp ((1 - r * r) / 2) * exp ((1 - r * r) / 2))); [field; lra|].
    rewrite V, B, <- Er. ring.
Qed.

Lemma vortex_unbalanced ma rho0 T0 r : 0 < rho0 -> 0 < T0 -> 0 < r < 5 -> 0 < vortex_factor ma r -> exists rho,
  (forall s, 0 <= s -> 0 < vortex_factor ma s -> vortex_density ma rho0 s = Ok (rho s)) /\
  derivable_pt_lim (fun s => gas_pressure (rho s) (vortex_temperature ma T0 s)) r
    (rho r * (ma * ma * (14 / 10 * T0 / 3) * (r * r) * exp (1 - r * r)) / r) /\
  (radial_equilibrium rho (fun s => s * vortex_speed ma (vortex_temperature ma T0 s) * exp ((1 - s * s) / 2)) (vortex_temperature ma T0) r <-> ma = 0).
Proof.
  intros Hr HT Hrr Hf.
  set (rho s := match vortex_density ma rho0 s with Ok v => v | _ => 0 end).
  assert (Hrho : forall s, 0 <= s -> 0 < vortex_factor ma s -> vortex_density ma rho0 s = Ok (rho s)).
  { intros s Hs Fs. unfold rho. destruct (Rle_dec s 5) as [L|L]; [rewrite density_value by assumption; reflexivity|]. unfold vortex_density. destruct (Rle_dec s 5); [contradiction|reflexivity]. }
  exists rho. split; [exact Hrho|]. split.
  - pose proof (vortex_gradient ma rho0 T0 rho HT r Hrr Hf Hrho) as D. eapply dl_eq; [exact D|]. cbv beta.
    rewrite (speed2 ma T0 HT r Hrr Hf). field. lra.
  - exact (vortex_balance ma rho0 T0 rho Hr HT r Hrr Hf Hrho).
Qed.

Lemma vortex_refuted : exists ma r rho, 0 < r < 5 /\ (forall s, 0 <= s -> vortex_density ma 1 s = Ok (rho s)) /\
  ~ radial_equilibrium rho (fun s => s * vortex_speed ma (vortex_temperature ma 1 s) * exp ((1 - s * s) / 2)) (vortex_temperature ma 1) r.
Proof.
  assert (Hf : forall s, 0 < vortex_factor 1 s) by (intros; apply factor_pos; lra).
  destruct (vortex_unbalanced 1 1 1 1 ltac:(lra) ltac:(lra) ltac:(lra) (Hf 1)) as (rho & A & _ & B).
  exists 1, 1, rho. split; [lra|]. split; [intros s Hs; apply A; [exact Hs|apply Hf]|]. rewrite B. lra.
Qed.

Lemma ray_radius r : 0 <= r -> radius (32 + r) 12 = r.
Proof.
  intros H. unfold radius, x_rel, y_rel, svi_shockPosition, svi_vortexOffset.
  replace ((32 + r - (30 + 2)) * (32 + r - (30 + 2)) + (12 - 12) * (12 - 12)) with (r * r) by ring. apply sqrt_square. exact H.
Qed.

Lemma default_wave gamma : ~ euler gamma (sdp_density sdp_default_L 1) (sdp_velocity 1 0) (sdp_velocity 1 1) (sdp_temperature sdp_default_L 1).
Proof.
  intros (M & _). pose proof PI_RGT_0 as P.
  assert (HL : 0 < sdp_default_L) by (unfold sdp_default_L; lra).
  destruct (proj1 (wave_mass sdp_default_L 1 HL) M) as [E|E]; [|lra]. unfold sdp_default_L in E. pose proof PI2_3_2 as Q. lra.
Qed.
