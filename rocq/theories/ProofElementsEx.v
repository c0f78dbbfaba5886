(** Concrete Gauss-Lobatto points, piecewise polynomials and a cell of a grid that is not Cartesian. *)
From Verif Require Import Prelude BigSum ModelSemiLagrangian SpecSemiLagrangian ModelBenchmarks ModelElements SpecElements ProofSemiLagrangian ProofBenchGrid ProofElements ProofElements2.
Local Open Scope R_scope.

(** The points of three intervals, otherwise (they are not needed) Chebyshev points. *)
Definition sample_lobatto (m i : nat) : R :=
  match m, i with
  | 4%nat, 1%nat => 1 / 2 * (1 - / sqrt 5) | 4%nat, 2%nat => 1 / 2 * (1 + / sqrt 5)
  | 4%nat, 0%nat => 0 | 4%nat, 3%nat => 1
  | _, _ => support_points (fun _ _ => 0) GaussLobattoChebyshevPoints (m - 1) i
  end.
Lemma inv_sqrt5 : 0 < / sqrt 5 < 1.
Proof.
  assert (A : 1 < sqrt 5) by (rewrite <- sqrt_1 at 1; apply sqrt_lt_1; lra). split; [apply Rinv_0_lt_compat; lra|].
  rewrite <- Rinv_1. apply Rinv_lt_contravar; lra.
Qed.
Lemma sample_lobatto_ok : lobatto_points sample_lobatto.
Proof.
  assert (Hs := inv_sqrt5). intros n Hn.
  assert (Base : forall m, (1 <= m)%nat -> ordered_points m (support_points (fun _ _ => 0) GaussLobattoChebyshevPoints m) /\
    support_points (fun _ _ => 0) GaussLobattoChebyshevPoints m 0%nat = 0 /\ support_points (fun _ _ => 0) GaussLobattoChebyshevPoints m m = 1).
  { intros m Hm. assert (Dummy : lobatto_points (fun m i => INR i / INR (m - 1))).
    { intros j Hj. replace (j + 1 - 1)%nat with j by lia. assert (P : 0 < INR j) by (apply lt_0_INR; lia). split; [split|].
      - intros i Hi. apply INR_div_unit; lia.
      - intros i i' Hi. apply INR_div_lt; lia.
      - split; [cbn [INR]|]; field; lra. }
    split; [exact (points_ordered _ Dummy GaussLobattoChebyshevPoints m Hm)|]. exact (ends _ GaussLobattoChebyshevPoints m Dummy Hm ltac:(congruence)). }
  destruct (Nat.eq_dec n 3) as [->|N].
  - cbn [Nat.add]. split; [split|].
    + intros [|[|[|[|i]]]] Hi; cbn [sample_lobatto]; try lra. lia.
    + intros i j Hij. assert (Hj : (j = 1 \/ j = 2 \/ j = 3)%nat) by lia.
      destruct Hj as [->|[->| ->]]; (assert (Hi : (i = 0 \/ i = 1 \/ i = 2)%nat) by lia; destruct Hi as [->|[->| ->]]; try lia; cbn [sample_lobatto]; lra).
    + split; reflexivity.
  - assert (E : forall i, sample_lobatto (n + 1) i = support_points (fun _ _ => 0) GaussLobattoChebyshevPoints n i).
    { intros i. replace (n + 1)%nat with (S n) by lia. unfold sample_lobatto. replace (S n - 1)%nat with n by lia.
      destruct n as [|[|[|[|n]]]]; try reflexivity. lia. }
    destruct (Base n Hn) as ([O1 O2] & E0 & E1). split; [split|split].
    + intros i Hi. rewrite E. apply O1. exact Hi.
    + intros i j Hij. rewrite !E. apply O2. exact Hij.
    + rewrite E. exact E0.
    + rewrite E. exact E1.
Qed.

(** The product of the coordinates is a polynomial of degree 1 in each. *)
Lemma xy_polynomial : polynomial 1 2 (fun u => u 0%nat * u 1%nat).
Proof.
  exists 1%nat, (fun _ => 1), (fun _ _ => 1%nat). split; [intros; lia|]. intros u. cbn [sumf prodf]. ring.
Qed.

(** The lower right quarter of the unit square under SinusoidalShear2D with height 1, amplitude 1/2 and wavelength 1: its
    right edge is shorter than its left edge, the Cartesian mapping would put the wall elsewhere. *)
Definition sinus_vertex (k : nat) : point := match sinus_point 1 (49 / 100) 1 (box_vertex (fun _ => 0) (fun i => match i with O => 1 / 4 | _ => 1 end) k) with Ok q => q | _ => fun _ => 0 end.
Lemma sinus_differs : (forall k, (k < 4)%nat -> sinus_point 1 (49 / 100) 1 (box_vertex (fun _ => 0) (fun i => match i with O => 1 / 4 | _ => 1 end) k) = Ok (sinus_vertex k)) /\
  mapping_cartesian sinus_vertex (fun _ => 1) 1%nat = 1 /\ mapping_q1 2 sinus_vertex (fun _ => 1) 1%nat = 149 / 100.
Proof.
  assert (Pi := PI_RGT_0).
  assert (Ht : tanh (1 / 2 * PI) <> 0) by (assert (X := tanh_pos (1 / 2 * PI) ltac:(nra)); lra).
  assert (V : forall x y, sinus_grid 1 (49 / 100) 1 (x, y) = Ok (1 * sinus_refineX (49 / 100) x, sinus_refineY y * sinus_upper 1 (49 / 100) (sinus_refineX (49 / 100) x))).
  { intros x y. unfold sinus_grid. destruct (Rlt_dec (49 / 100) 1) as [_|X]; [|lra]. reflexivity. }
  assert (Y1 : sinus_refineY 1 = 1).
  { unfold sinus_refineY. replace ((1 - 1 / 2) * PI) with (1 / 2 * PI) by field. field. exact Ht. }
  assert (X0 : sinus_refineX (49 / 100) 0 = 0) by (unfold sinus_refineX; replace (4 * PI * 0) with 0 by ring; rewrite sin_0; ring).
  assert (X4 : sinus_refineX (49 / 100) (1 / 4) = 1 / 4) by (unfold sinus_refineX; replace (4 * PI * (1 / 4)) with PI by field; rewrite sin_PI; ring).
  assert (U0 : sinus_upper 1 (49 / 100) 0 = 1) by (unfold sinus_upper; replace (2 * PI * 0) with 0 by ring; rewrite sin_0; ring).
  assert (U4 : sinus_upper 1 (49 / 100) (1 / 4) = 149 / 100) by (unfold sinus_upper; replace (2 * PI * (1 / 4)) with (PI / 2) by field; rewrite sin_PI2; field).
  assert (Y0 : sinus_refineY 0 = 0).
  { unfold sinus_refineY. replace ((0 - 1 / 2) * PI) with (- (1 / 2 * PI)) by field. rewrite tanh_odd. field. exact Ht. }
  assert (B : forall k, box_vertex (fun _ => 0) (fun i => match i with O => 1 / 4 | _ => 1 end) k 0%nat = INR (digit 2 0 k) / 4 /\
    box_vertex (fun _ => 0) (fun i => match i with O => 1 / 4 | _ => 1 end) k 1%nat = INR (digit 2 1 k)).
  { intros k. unfold box_vertex. split; [field|ring]. }
  assert (SV : forall k i, (i = 1)%nat -> sinus_vertex k i = sinus_refineY (INR (digit 2 1 k)) * sinus_upper 1 (49 / 100) (sinus_refineX (49 / 100) (INR (digit 2 0 k) / 4))).
  { intros k i ->. unfold sinus_vertex, sinus_point. destruct (B k) as [-> ->]. rewrite V. cbn [obind on_plane2 snd]. reflexivity. }
  split; [|split].
  - intros k _. unfold sinus_vertex, sinus_point. destruct (B k) as [-> ->]. rewrite V. reflexivity.
  - unfold mapping_cartesian. rewrite !SV by reflexivity. cbn [Nat.pow Nat.mul Nat.add].
    replace (digit 2 0 0) with 0%nat by reflexivity. replace (digit 2 1 0) with 0%nat by reflexivity. replace (digit 2 0 2) with 0%nat by reflexivity. replace (digit 2 1 2) with 1%nat by reflexivity.
    cbn [INR]. replace (0 / 4) with 0 by field. rewrite Y0, Y1, X0, U0. ring.
  - unfold mapping_q1. cbn [Nat.pow Nat.mul Nat.add sumf prodf]. rewrite !SV by reflexivity.
    replace (digit 2 0 0) with 0%nat by reflexivity. replace (digit 2 1 0) with 0%nat by reflexivity. replace (digit 2 0 2) with 0%nat by reflexivity. replace (digit 2 1 2) with 1%nat by reflexivity.
    replace (digit 2 0 1) with 1%nat by reflexivity. replace (digit 2 1 1) with 0%nat by reflexivity. replace (digit 2 0 3) with 1%nat by reflexivity. replace (digit 2 1 3) with 1%nat by reflexivity.
    cbn [Nat.eqb INR]. replace (1 / 4) with (1 / 4) by reflexivity. rewrite Y0, Y1, X4, U4. ring.
Qed.
