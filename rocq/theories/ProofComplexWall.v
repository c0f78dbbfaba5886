(** The wavy wall. *)
From Verif Require Import Prelude SpecBenchmarks ModelBenchmarks ProofBenchGrid ModelComplexWall.
Local Open Scope R_scope.

Lemma wall_y_order : keeps_order 0 1 0 1 wall_refineY.
Proof.
  destruct sinus_refineY_order as (A & B & C).
  assert (E : forall y, wall_refineY y = sinus_refineY y).
  { intros y. unfold wall_refineY, sinus_refineY. rewrite Rmult_1_l. replace (y / 1) with y by field. reflexivity. }
  repeat split; [rewrite E; exact A|rewrite E; exact B|]. intros x y H1 H2 H3. rewrite !E. exact (C x y H1 H2 H3).
Qed.

Lemma wall_upper_bounds L x : 1 / 10 <= wall_upper L x <= 19 / 10.
Proof.
  unfold wall_upper. pose proof (COS_bound (2 * PI * x / (L * 1))). pose proof (COS_bound (1 + 2 * PI * x / (L / 2))).
  pose proof (COS_bound (12 / 100 + 2 * PI * x / (L / 5))). pose proof (COS_bound (2 * PI * x / (L / 6))) as H2.
  set (c := cos (2 * PI * x / (L / 6))) in *.
  assert (P : 0 <= c * c <= 1) by (split; [exact (Rle_0_sqr c)|nra]).
  assert (Q : -1 <= c ^ 3 <= 1). { replace (c ^ 3) with (c * (c * c)) by ring. split; nra. }
  lra.
Qed.

Lemma cos_shift n a : cos (a + INR n * (2 * PI)) = cos a.
Proof. replace (a + INR n * (2 * PI)) with (a + 2 * INR n * PI) by ring. apply cos_period. Qed.

Lemma wall_periodic L : L <> 0 -> periodic L (wall_upper L).
Proof.
  intros HL x. unfold wall_upper.
  replace (2 * PI * (x + L) / (L * 1)) with (2 * PI * x / (L * 1) + INR 1 * (2 * PI)) by (simpl; field; exact HL).
  replace (2 * PI * (x + L) / (L / 6)) with (2 * PI * x / (L / 6) + INR 6 * (2 * PI)) by (simpl; field; exact HL).
  replace (1 + 2 * PI * (x + L) / (L / 2)) with (1 + 2 * PI * x / (L / 2) + INR 2 * (2 * PI)) by (simpl; field; exact HL).
  replace (12 / 100 + 2 * PI * (x + L) / (L / 5)) with (12 / 100 + 2 * PI * x / (L / 5) + INR 5 * (2 * PI)) by (simpl; field; exact HL).
  rewrite !cos_shift. reflexivity.
Qed.

Lemma wall_columns L x : keeps_order 0 1 0 (wall_upper L x) (fun y => snd (wall_grid L (x, y))).
Proof.
  destruct wall_y_order as (A & B & C). pose proof (wall_upper_bounds L x). unfold wall_grid, wall_refineX; cbn [fst snd].
  repeat split; [rewrite A; ring|rewrite B; ring|]. intros y z H1 H2 H3. apply Rmult_lt_compat_r; [lra|exact (C y z H1 H2 H3)].
Qed.

Lemma wall_injective L : one_to_one_on L 1 (wall_grid L).
Proof.
  intros [x y] [x' y'] H1 H2 H3 H4 E. cbn [fst snd] in *. injection E as Ex Ey. unfold wall_refineX in *. cbn [fst snd] in *. subst x'. f_equal.
  pose proof (wall_upper_bounds L x). apply Rmult_eq_reg_r in Ey; [|lra]. destruct wall_y_order as (_ & _ & C).
  destruct (Rtotal_order y y') as [Q|[Q|Q]]; [pose proof (C y y' ltac:(lra) Q ltac:(lra)); lra|exact Q|pose proof (C y' y ltac:(lra) Q ltac:(lra)); lra].
Qed.
