(** Proofs about the initial states of the compressible examples. *)
From Verif Require Import Prelude SpecBenchmarks ProofDeriv ProofBenchGrid ModelShocks SpecShocks.
Local Open Scope R_scope.

(** ** Smoothed steps *)
Lemma ramp_value st off l r x : r <> l -> ramp st off l r x = l + (r - l) * ((1 + tanh (st * (x - off))) / 2).
Proof. intros H. unfold ramp, calcOffsets. field. lra. Qed.

Lemma tanh_low z : z <= 0 -> 0 < (1 + tanh z) / 2 <= exp (2 * z).
Proof.
  intros H. rewrite tanh_exp. pose proof (exp_pos (2 * z)) as P. replace ((1 + (1 - 2 / (exp (2 * z) + 1))) / 2) with (exp (2 * z) / (exp (2 * z) + 1)) by (field; lra).
  split; [apply Rdiv_lt_0_compat; lra|]. apply (Rmult_le_reg_r (exp (2 * z) + 1)); [lra|]. unfold Rdiv. rewrite Rmult_assoc, Rinv_l by lra. nra.
Qed.
Lemma tanh_high z : 0 <= z -> 0 < (1 - tanh z) / 2 <= exp (- (2 * z)).
Proof.
  intros H. destruct (tanh_low (- z) ltac:(lra)) as [A B]. rewrite tanh_odd in A, B. replace (2 * - z) with (- (2 * z)) in B by ring. split; lra.
Qed.

Lemma ramp_left st off l r x : 0 < st -> l <> r -> x <= off -> Rabs (ramp st off l r x - l) <= Rabs (r - l) * exp (2 * (st * (x - off))).
Proof.
  intros Hs Hl Hx. rewrite ramp_value by congruence. assert (Hz : st * (x - off) <= 0) by nra. destruct (tanh_low _ Hz) as [A B].
  replace (l + (r - l) * ((1 + tanh (st * (x - off))) / 2) - l) with ((r - l) * ((1 + tanh (st * (x - off))) / 2)) by ring.
  rewrite Rabs_mult. apply Rmult_le_compat_l; [apply Rabs_pos|]. rewrite Rabs_pos_eq; lra.
Qed.
Lemma ramp_right st off l r x : 0 < st -> l <> r -> off <= x -> Rabs (ramp st off l r x - r) <= Rabs (r - l) * exp (- (2 * (st * (x - off)))).
Proof.
  intros Hs Hl Hx. rewrite ramp_value by congruence. assert (Hz : 0 <= st * (x - off)) by nra. destruct (tanh_high _ Hz) as [A B].
  replace (l + (r - l) * ((1 + tanh (st * (x - off))) / 2) - r) with (- (r - l) * ((1 - tanh (st * (x - off))) / 2)) by field.
  rewrite Rabs_mult, Rabs_Ropp. apply Rmult_le_compat_l; [apply Rabs_pos|]. rewrite Rabs_pos_eq; lra.
Qed.
Lemma ramp_between st off l r x : r < l -> r < ramp st off l r x < l.
Proof.
  intros H. rewrite ramp_value by lra. set (t := (1 + tanh (st * (x - off))) / 2).
  assert (0 < t < 1).
  { unfold t. pose proof (tanh_lt_1 (st * (x - off))). pose proof (tanh_lt_1 (- (st * (x - off)))) as B. rewrite tanh_odd in B. lra. }
  split; nra.
Qed.

(** ** The standing shock *)
Lemma speed_square ma T : 0 <= T -> (- ma / sqrt 3 * sqrt (14 / 10 * T)) * (- ma / sqrt 3 * sqrt (14 / 10 * T)) = ma * ma * (14 / 10) * T / 3.
Proof.
  intros HT. assert (A : sqrt 3 * sqrt 3 = 3) by (apply sqrt_sqrt; lra). assert (B : sqrt (14 / 10 * T) * sqrt (14 / 10 * T) = 14 / 10 * T) by (apply sqrt_sqrt; lra).
  assert (P : 0 < sqrt 3) by (apply sqrt_lt_R0; lra).
  replace (- ma / sqrt 3 * sqrt (14 / 10 * T) * (- ma / sqrt 3 * sqrt (14 / 10 * T))) with (ma * ma * (sqrt (14 / 10 * T) * sqrt (14 / 10 * T)) / (sqrt 3 * sqrt 3)) by (field; lra).
  rewrite A, B. field.
Qed.
Lemma speed_nonpos ma T : 0 <= ma -> - ma / sqrt 3 * sqrt (14 / 10 * T) <= 0.
Proof.
  intros H. assert (P : 0 < sqrt 3) by (apply sqrt_lt_R0; lra). pose proof (sqrt_pos (14 / 10 * T)) as Q.
  assert (0 <= ma / sqrt 3) by (apply Rle_mult_inv_pos; lra).
  replace (- ma / sqrt 3 * sqrt (14 / 10 * T)) with (- (ma / sqrt 3 * sqrt (14 / 10 * T))) by (field; lra). nra.
Qed.

Lemma left_speed : svi_velocityLeft * svi_velocityLeft = svi_machLeft * svi_machLeft * (14 / 10) * svi_temperatureLeft / 3 /\ svi_velocityLeft <= 0.
Proof. split; [apply speed_square; unfold svi_temperatureLeft; lra|apply speed_nonpos; unfold svi_machLeft; lra]. Qed.
Lemma right_speed : svi_velocityRight * svi_velocityRight = 672 / 1000 /\ svi_velocityRight <= 0.
Proof.
  split; [unfold svi_velocityRight; rewrite speed_square by (unfold svi_temperatureRight; lra); unfold svi_machRight, svi_temperatureRight; field|apply speed_nonpos; unfold svi_machRight; lra].
Qed.

Lemma close_roots X Y d : 0 <= X -> 1 / 2 <= Y -> Rabs (X * X - Y * Y) <= d -> Rabs (X - Y) <= 2 * d.
Proof.
  intros HX HY H. assert (E : Rabs (X * X - Y * Y) = Rabs (X - Y) * (X + Y)).
  { replace (X * X - Y * Y) with ((X - Y) * (X + Y)) by ring. rewrite Rabs_mult, (Rabs_pos_eq (X + Y)) by lra. reflexivity. }
  rewrite E in H. pose proof (Rabs_pos (X - Y)). nra.
Qed.

Lemma standing_shock : shock_conditions (1 / 10000000) (14 / 10) 0 svi_densityLeft svi_velocityLeft svi_temperatureLeft svi_densityRight svi_velocityRight svi_temperatureRight.
Proof.
  destruct left_speed as [L1 L2]. destruct right_speed as [R1 R2].
  set (ul := svi_velocityLeft) in *. set (ur := svi_velocityRight) in *. clearbody ul ur.
  unfold svi_machLeft, svi_temperatureLeft in L1.
  assert (M : Rabs (- (134161490 / 100000000 * ul) - - ur) <= 4 / 100000000).
  { replace (4 / 100000000) with (2 * (2 / 100000000)) by field. apply close_roots; [lra| |].
    - nra.
    - replace (- (134161490 / 100000000 * ul) * - (134161490 / 100000000 * ul)) with (134161490 / 100000000 * (134161490 / 100000000) * (ul * ul)) by ring.
      replace (- ur * - ur) with (ur * ur) by ring. rewrite L1, R1. apply Rabs_le. lra. }
  assert (M' : - (4 / 100000000) <= 134161490 / 100000000 * ul - ur <= 4 / 100000000).
  { unfold Rabs in M. destruct (Rcase_abs _) in M; lra. }
  clear M. assert (Hur : - 1 <= ur) by nra.
  unfold shock_conditions, gas_energy, gas_pressure, svi_densityLeft, svi_densityRight, svi_temperatureLeft, svi_temperatureRight.
  split; [apply Rabs_le; lra|]. split.
  - replace (134161490 / 100000000 * ul * ul) with (134161490 / 100000000 * (ul * ul)) by ring. replace (1 * ur * ur) with (ur * ur) by ring. rewrite L1, R1. apply Rabs_le. lra.
  - set (m := 134161490 / 100000000 * ul) in *.
    replace ((134161490 / 100000000 * (112799382716 / 100000000000) / 3 / (14 / 10 - 1) + 134161490 / 100000000 * (ul * ul + 0 * 0) / 2 + 134161490 / 100000000 * (112799382716 / 100000000000) / 3) * ul)
      with (m * (112799382716 / 100000000000 * (7 / 2) / 3 + (ul * ul) / 2)) by (unfold m; field).
    replace ((1 * 1 / 3 / (14 / 10 - 1) + 1 * (ur * ur + 0 * 0) / 2 + 1 * 1 / 3) * ur) with (ur * (7 / 6 + (ur * ur) / 2)) by field.
    rewrite L1, R1. apply Rabs_le. lra.
Qed.
