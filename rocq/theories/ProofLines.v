(** Lines of periodic interfaces. *)
From Coq Require Import Sorting.Sorted.
From Verif Require Import Prelude ModelLines SpecLines.
Local Open Scope R_scope.

(** ** Vectors *)
Lemma dot2_nonneg a : 0 <= dot2 a a.
Proof. unfold dot2. nra. Qed.
Lemma norm2_nonneg a : 0 <= norm2 a.
Proof. apply sqrt_pos. Qed.
Lemma norm2_sq a : norm2 a * norm2 a = dot2 a a.
Proof. apply sqrt_sqrt, dot2_nonneg. Qed.
Lemma norm2_zero a : norm2 a = 0 -> a = (0, 0).
Proof.
  intros H. pose proof (norm2_sq a) as E. rewrite H in E. destruct a as [x y]. unfold dot2 in E. cbn in E.
  assert (x = 0) by nra. assert (y = 0) by nra. congruence.
Qed.
Lemma norm2_pos a : a <> (0, 0) -> 0 < norm2 a.
Proof. intros H. destruct (norm2_nonneg a) as [P|P]; [exact P|]. exfalso. apply H, norm2_zero. congruence. Qed.
Lemma norm2_00 : norm2 (0, 0) = 0.
Proof. unfold norm2, dot2. cbn. replace (0 * 0 + 0 * 0) with 0 by ring. apply sqrt_0. Qed.
Lemma distance_zero a b : distance a b = 0 <-> a = b.
Proof.
  unfold distance. split.
  - intros H. apply norm2_zero in H. unfold sub in H. injection H as H1 H2. destruct a, b. cbn in *. f_equal; lra.
  - intros ->. unfold sub. replace (fst b - fst b) with 0 by ring. replace (snd b - snd b) with 0 by ring. apply norm2_00.
Qed.
Lemma distance_sym a b : distance a b = distance b a.
Proof. unfold distance, norm2. f_equal. unfold dot2, sub. cbn. ring. Qed.

Lemma norm2_scale c v : norm2 (scale c v) = Rabs c * norm2 v.
Proof.
  unfold norm2. replace (dot2 (scale c v) (scale c v)) with (Rsqr c * dot2 v v) by (unfold dot2, scale, Rsqr; cbn; ring).
  rewrite sqrt_mult_alt by apply Rle_0_sqr. rewrite sqrt_Rsqr_abs. reflexivity.
Qed.

(** ** is_angle_small *)
Lemma angle0 v w : is_angle_small v w 0 = true <-> 99/100 * (norm2 v * norm2 w) < dot2 v w.
Proof.
  unfold is_angle_small. destruct (Req_EM_T (norm2 v * norm2 w) 0) as [E|E].
  - split; [discriminate|]. intros H. exfalso. apply Rmult_integral in E. destruct E as [E|E]; apply norm2_zero in E; subst; rewrite norm2_00 in H; unfold dot2 in H; cbn in H; lra.
  - destruct (Req_EM_T 0 0) as [_|X]; [|lra].
    assert (P : 0 < norm2 v * norm2 w) by (pose proof (norm2_nonneg v); pose proof (norm2_nonneg w); assert (0 <= norm2 v * norm2 w) by nra; lra).
    destruct (Rlt_dec _ _) as [L|L]; split; intros H; try discriminate; try reflexivity.
    + apply (Rmult_lt_compat_r _ _ _ P) in L. unfold Rdiv in L at 2. rewrite Rmult_assoc, Rinv_l, Rmult_1_r in L by exact E. exact L.
    + exfalso. apply L. apply (Rmult_lt_reg_r (norm2 v * norm2 w)); [exact P|]. unfold Rdiv at 2. rewrite Rmult_assoc, Rinv_l, Rmult_1_r by exact E. exact H.
Qed.
Lemma angle0_scale v c : v <> (0, 0) -> 0 < c -> is_angle_small v (scale c v) 0 = true.
Proof.
  intros Hv Hc. apply angle0. rewrite norm2_scale, (Rabs_right c) by lra.
  replace (dot2 v (scale c v)) with (c * (norm2 v * norm2 v)) by (rewrite norm2_sq; unfold dot2, scale; cbn; ring).
  pose proof (norm2_pos v Hv). assert (0 < norm2 v * norm2 v) by nra. nra.
Qed.
Lemma angle0_back v c : c < 0 -> is_angle_small v (scale c v) 0 = false.
Proof.
  intros Hc. destruct (is_angle_small v (scale c v) 0) eqn:E; [|reflexivity]. apply angle0 in E. exfalso.
  replace (dot2 v (scale c v)) with (c * (norm2 v * norm2 v)) in E by (rewrite norm2_sq; unfold dot2, scale; cbn; ring).
  pose proof (norm2_nonneg v). pose proof (norm2_nonneg (scale c v)). assert (0 <= norm2 v * norm2 v) by nra. assert (0 <= norm2 v * norm2 (scale c v)) by nra. nra.
Qed.

(** ** checkParallelLines *)
Lemma is_zero_dist a b : is_zero (distance a b) = true <-> a = b.
Proof. unfold is_zero. rewrite <- distance_zero. destruct (Req_EM_T (distance a b) 0); split; intros; try congruence; try reflexivity; discriminate. Qed.
Lemma is_zero_false a b : is_zero (distance a b) = false <-> a <> b.
Proof. rewrite <- is_zero_dist. destruct (is_zero (distance a b)); split; intros; congruence. Qed.

Lemma six b1 e1 b2 e2 : (is_zero (distance b1 e1) || is_zero (distance b2 e2) || is_zero (distance b1 b2) || is_zero (distance e1 e2) || is_zero (distance b1 e2) || is_zero (distance b2 e1))%bool = false
  <-> all_distinct b1 e1 b2 e2.
Proof. rewrite !orb_false_iff, !is_zero_false. unfold all_distinct. tauto. Qed.


Lemma len_ok l1 l2 : 0 < l1 -> (Rabs (l1 - l2) / l1 <= 1/100 <-> Rabs (l1 - l2) <= l1 / 100).
Proof.
  intros P. split; intros H.
  - apply (Rmult_le_compat_r l1) in H; [|lra]. unfold Rdiv in H at 1. rewrite Rmult_assoc, Rinv_l, Rmult_1_r in H by lra. lra.
  - apply (Rmult_le_reg_r l1); [exact P|]. unfold Rdiv at 1. rewrite Rmult_assoc, Rinv_l, Rmult_1_r by lra. lra.
Qed.

Lemma check_decides b1 e1 b2 e2 :
  fst (fst (checkParallelLines b1 e1 b2 e2)) = true <->
  all_distinct b1 e1 b2 e2 /\ Rabs (distance b1 e1 - distance b2 e2) <= distance b1 e1 / 100 /\ almost_parallel b1 e1 b2 e2.
Proof.
  unfold checkParallelLines. cbv zeta. destruct (_ || _)%bool eqn:E6.
  - cbn [fst]. split; [discriminate|]. intros (H & _). apply six in H. congruence.
  - assert (P : 0 < distance b1 e1).
    { apply six in E6. destruct E6 as [X _]. destruct (norm2_nonneg (sub b1 e1)) as [Y|Y]; [exact Y|]. exfalso. apply X, distance_zero. unfold distance. congruence. }
    apply six in E6.
    destruct (Rlt_dec (1/100) (Rabs (distance b1 e1 - distance b2 e2) / distance b1 e1)) as [L|L].
    + cbn [fst]. split; [discriminate|]. intros (_ & H & _). apply (len_ok _ _ P) in H. lra.
    + assert (L' : Rabs (distance b1 e1 - distance b2 e2) <= distance b1 e1 / 100) by (apply (len_ok _ _ P); lra).
      assert (N1 : norm2 (sub e1 b1) = distance b1 e1) by (rewrite distance_sym; reflexivity).
      assert (N2 : norm2 (sub e2 b2) = distance b2 e2) by (rewrite distance_sym; reflexivity).
      assert (Nn : dot2 (sub e1 b1) (sub b2 e2) = - dot2 (sub e1 b1) (sub e2 b2)) by (unfold dot2, sub; cbn; ring).
      assert (Q : 0 <= distance b1 e1 * distance b2 e2) by (pose proof (norm2_nonneg (sub b1 e1)); pose proof (norm2_nonneg (sub b2 e2)); unfold distance; nra).
      destruct (is_angle_small (sub e1 b1) (sub e2 b2) 0) eqn:A1; cbn [negb].
      * cbn [fst]. apply angle0 in A1. rewrite N1, N2 in A1. split; [|reflexivity]. intros _. split; [exact E6|]. split; [exact L'|]. unfold almost_parallel.
        eapply Rlt_le_trans; [exact A1|apply Rle_abs].
      * destruct (is_angle_small (sub e1 b1) (sub b2 e2) 0) eqn:A2; cbn [negb fst].
        -- apply angle0 in A2. rewrite N1, Nn in A2. change (norm2 (sub b2 e2)) with (distance b2 e2) in A2. split; [|reflexivity]. intros _. split; [exact E6|]. split; [exact L'|].
           unfold almost_parallel. rewrite <- Rabs_Ropp. eapply Rlt_le_trans; [exact A2|apply Rle_abs].
        -- split; [discriminate|]. intros (_ & _ & H). unfold almost_parallel in H. exfalso.
           unfold Rabs in H. destruct (Rcase_abs (dot2 (sub e1 b1) (sub e2 b2))).
           ++ assert (X : is_angle_small (sub e1 b1) (sub b2 e2) 0 = true) by (apply angle0; rewrite N1, Nn; exact H). congruence.
           ++ assert (X : is_angle_small (sub e1 b1) (sub e2 b2) 0 = true) by (apply angle0; rewrite N1, N2; exact H). congruence.
Qed.

Lemma check_orients b1 e1 b2 e2 b2' e2' m : checkParallelLines b1 e1 b2 e2 = ((true, (b2', e2')), m) ->
  ((b2', e2') = (b2, e2) \/ (b2', e2') = (e2, b2)) /\ 99/100 * (distance b1 e1 * distance b2' e2') < dot2 (sub e1 b1) (sub e2' b2').
Proof.
  unfold checkParallelLines. cbv zeta. destruct (_ || _)%bool; [discriminate|]. destruct (Rlt_dec _ _) as [|_]; [discriminate|].
  destruct (is_angle_small (sub e1 b1) (sub e2 b2) 0) eqn:A1; cbn [negb].
  - intros H. injection H as <- <- _. split; [left; reflexivity|]. apply angle0 in A1. rewrite (distance_sym b1), (distance_sym b2). exact A1.
  - destruct (is_angle_small (sub e1 b1) (sub b2 e2) 0) eqn:A2; cbn [negb]; [|discriminate].
    intros H. injection H as <- <- _. split; [right; reflexivity|]. apply angle0 in A2. rewrite (distance_sym b1), (distance_sym e2). exact A2.
Qed.

Lemma check_rejects b1 e1 b2 e2 l m : checkParallelLines b1 e1 b2 e2 = ((false, l), m) ->
  l = (b2, e2) /\ exists e, m = Some e /\
  match e with
  | PointsEqual => ~ all_distinct b1 e1 b2 e2
  | LengthsDiffer => all_distinct b1 e1 b2 e2 /\ distance b1 e1 / 100 < Rabs (distance b1 e1 - distance b2 e2)
  | NotParallel => all_distinct b1 e1 b2 e2 /\ ~ almost_parallel b1 e1 b2 e2
  end.
Proof.
  intros H. assert (D := check_decides b1 e1 b2 e2). rewrite H in D. cbn [fst] in D. revert H D.
  unfold checkParallelLines. cbv zeta. destruct (_ || _)%bool eqn:E6.
  { intros H _. injection H as <- <-. split; [reflexivity|]. eexists; split; [reflexivity|]. intros X. apply six in X. congruence. }
  apply six in E6.
  assert (P : 0 < distance b1 e1).
  { destruct E6 as [X _]. destruct (norm2_nonneg (sub b1 e1)) as [Y|Y]; [exact Y|]. exfalso. apply X, distance_zero. unfold distance. congruence. }
  destruct (Rlt_dec _ _) as [L|L].
  { intros H _. injection H as <- <-. split; [reflexivity|]. eexists; split; [reflexivity|]. split; [exact E6|].
    destruct (Rlt_dec (distance b1 e1 / 100) (Rabs (distance b1 e1 - distance b2 e2))) as [X|X]; [exact X|]. exfalso. apply Rnot_lt_le in X. apply (len_ok _ _ P) in X. lra. }
  destruct (is_angle_small (sub e1 b1) (sub e2 b2) 0); cbn [negb]; [discriminate|].
  destruct (is_angle_small (sub e1 b1) (sub b2 e2) 0); cbn [negb]; [discriminate|].
  intros H D. injection H as <- <-. split; [reflexivity|]. eexists; split; [reflexivity|]. split; [exact E6|].
  intros X. assert (false = true); [|discriminate]. apply D. split; [exact E6|]. split; [|exact X]. apply (len_ok _ _ P). lra.
Qed.

(** Parallel lines of equal length *)
Lemma check_parallel b1 e1 b2 e2 c : all_distinct b1 e1 b2 e2 -> sub e2 b2 = scale c (sub e1 b1) -> 99/100 <= Rabs c <= 101/100 ->
  exists b2' e2', checkParallelLines b1 e1 b2 e2 = ((true, (b2', e2')), None) /\
    ((b2', e2') = (b2, e2) \/ (b2', e2') = (e2, b2)) /\ sub e2' b2' = scale (Rabs c) (sub e1 b1).
Proof.
  intros Hd Hc Hr. unfold checkParallelLines. cbv zeta. rewrite (proj2 (six _ _ _ _) Hd).
  assert (V : sub e1 b1 <> (0, 0)).
  { intros X. destruct Hd as [Y _]. apply Y. apply distance_zero. rewrite distance_sym. unfold distance. rewrite X. apply norm2_00. }
  assert (P : 0 < distance b1 e1) by (rewrite distance_sym; apply norm2_pos; exact V).
  assert (L2 : distance b2 e2 = Rabs c * distance b1 e1) by (rewrite (distance_sym b2), (distance_sym b1); unfold distance; rewrite Hc; apply norm2_scale).
  destruct (Rlt_dec _ _) as [L|_].
  { exfalso. assert (X : Rabs (distance b1 e1 - distance b2 e2) / distance b1 e1 <= 1/100); [|lra]. apply (len_ok _ _ P). rewrite L2.
    replace (distance b1 e1 - Rabs c * distance b1 e1) with ((1 - Rabs c) * distance b1 e1) by ring. rewrite Rabs_mult, (Rabs_right (distance b1 e1)) by lra.
    assert (Rabs (1 - Rabs c) <= 1/100) by (apply Rabs_le; lra). nra. }
  assert (Hb : sub b2 e2 = scale (- c) (sub e1 b1)).
  { unfold sub, scale in *. cbn in *. injection Hc as H1 H2. f_equal; lra. }
  destruct (Rlt_dec 0 c) as [Pc|Pc].
  - rewrite Hc, (angle0_scale _ _ V Pc). cbn [negb]. exists b2, e2. split; [reflexivity|]. split; [left; reflexivity|]. rewrite Hc, Rabs_right by lra. reflexivity.
  - assert (Nc : c < 0) by (destruct (Req_dec c 0) as [->|]; [rewrite Rabs_R0 in Hr; lra|lra]).
    rewrite Hc, (angle0_back _ _ Nc). cbn [negb]. rewrite Hb, (angle0_scale _ _ V) by lra. cbn [negb].
    exists e2, b2. split; [reflexivity|]. split; [right; reflexivity|]. rewrite Hb, Rabs_left by lra. reflexivity.
Qed.

(** (0,0)-(10,0) and (0,1)-(10,2) *)
Lemma tilt : fst (fst (checkParallelLines (0, 0) (10, 0) (0, 1) (10, 2))) = true /\ ~ parallel (0, 0) (10, 0) (0, 1) (10, 2).
Proof.
  split.
  - apply check_decides.
    assert (L1 : distance (0, 0) (10, 0) = 10).
    { unfold distance, norm2, dot2, sub. cbn [fst snd]. replace ((0 - 10) * (0 - 10) + (0 - 0) * (0 - 0)) with (10 ^ 2) by ring. apply sqrt_pow2. lra. }
    assert (L2 : distance (0, 1) (10, 2) = sqrt 101).
    { unfold distance, norm2, dot2, sub. cbn [fst snd]. f_equal. ring. }
    assert (S1 : 10 <= sqrt 101) by (rewrite <- (sqrt_pow2 10) by lra; apply sqrt_le_1_alt; lra).
    assert (S2 : sqrt 101 <= 101/10) by (rewrite <- (sqrt_pow2 (101/10)) by lra; apply sqrt_le_1_alt; lra).
    split; [|split].
    + repeat split; intros X; injection X; intros; lra.
    + rewrite L1, L2. apply Rabs_le. lra.
    + unfold almost_parallel. rewrite L1, L2. unfold dot2, sub. cbn [fst snd]. replace ((10 - 0) * (10 - 0) + (0 - 0) * (2 - 1)) with 100 by ring. rewrite Rabs_right by lra. lra.
  - unfold parallel. cbn [fst snd]. lra.
Qed.

(** ** The threshold in degrees *)
Lemma norm_x : norm2 (1, 0) = 1.
Proof. unfold norm2, dot2. cbn. replace (1 * 1 + 0 * 0) with 1 by ring. apply sqrt_1. Qed.
Lemma norm_y : norm2 (0, 1) = 1.
Proof. unfold norm2, dot2. cbn. replace (0 * 0 + 1 * 1) with 1 by ring. apply sqrt_1. Qed.

(** about 0.11 degrees: equal vectors are refused *)
Lemma threshold_refuses : let deg := PI * PI / 90 in 0 < deg < 90 /\ angle_below (1, 0) (1, 0) deg /\ is_angle_small (1, 0) (1, 0) deg = false.
Proof.
  cbv zeta. pose proof PI_RGT_0 as P0. pose proof PI_4 as P4. assert (B : 0 < PI * PI / 90 < 90) by (split; [nra|assert (PI * PI <= 16) by nra; lra]).
  split; [exact B|]. split.
  - unfold angle_below. rewrite norm_x. unfold dot2. cbn [fst snd]. replace (1 * 1 + 0 * 0) with 1 by ring. rewrite !Rmult_1_r.
    rewrite <- cos_0. apply cos_decreasing_1; try lra; try nra.
  - unfold is_angle_small. rewrite norm_x. destruct (Req_EM_T (1 * 1) 0) as [E|_]; [lra|]. destruct (Req_EM_T (PI * PI / 90) 0) as [E|_]; [lra|].
    replace (PI * PI / 90 / PI * 180) with (0 + 2 * PI) by (field; lra). rewrite cos_2PI_r || (rewrite cos_plus, cos_2PI, sin_2PI, cos_0, sin_0).
    destruct (Rlt_dec _ _) as [X|_]; [|reflexivity]. exfalso. unfold dot2 in X. cbn [fst snd] in X. lra.
Qed.
(** about 0.055 degrees: perpendicular vectors are accepted *)
Lemma threshold_accepts : let deg := PI * PI / 180 in 0 < deg < 90 /\ ~ angle_below (1, 0) (0, 1) deg /\ is_angle_small (1, 0) (0, 1) deg = true.
Proof.
  cbv zeta. pose proof PI_RGT_0 as P0. pose proof PI_4 as P4. assert (B : 0 < PI * PI / 180 < 90) by (split; [nra|assert (PI * PI <= 16) by nra; lra]).
  split; [exact B|]. split.
  - unfold angle_below. rewrite norm_x, norm_y. unfold dot2. cbn [fst snd]. intros X.
    assert (Y : 0 < cos (PI * PI / 180 * PI / 180)).
    { assert (PI * PI <= 16) by nra. apply cos_gt_0; nra. }
    lra.
  - unfold is_angle_small. rewrite norm_x, norm_y. destruct (Req_EM_T (1 * 1) 0) as [E|_]; [lra|]. destruct (Req_EM_T (PI * PI / 180) 0) as [E|_]; [lra|].
    replace (PI * PI / 180 / PI * 180) with PI by (field; lra). rewrite cos_PI.
    destruct (Rlt_dec _ _) as [_|X]; [reflexivity|]. exfalso. apply X. unfold dot2. cbn [fst snd]. lra.
Qed.

(** ** Interfaces of a mesh *)
Lemma less_true a b : a + 1/1000000 < b -> own_double_less a b = true.
Proof. intros H. unfold own_double_less. rewrite Rabs_left by lra. destruct (Rlt_dec _ _); [|lra]. destruct (Rlt_dec a b); [reflexivity|lra]. Qed.
Lemma less_false a b : b <= a -> own_double_less a b = false.
Proof. intros H. unfold own_double_less. destruct (Rlt_dec _ _); [|reflexivity]. destruct (Rlt_dec a b); [lra|reflexivity]. Qed.

Definition entry_lt (a b : R * pt) : Prop := fst a < fst b.
Section Insert.
  Variable vs : list pt.
  Hypothesis Hsep : separated vs.
  Definition good (l : list (R * pt)) : Prop := StronglySorted entry_lt l /\ forall a, In a l -> fst a = key (snd a) /\ In (snd a) vs.

  Lemma insert_good p l : In p vs -> good l -> good (insert (key p) p l) /\ forall a, In a (insert (key p) p l) <-> a = (key p, p) \/ In a l.
  Proof.
    intros Hp. induction l as [|[k' p'] r IH]; intros [Hs Ha].
    - cbn [insert]. split; [split; [repeat constructor|]|].
      + intros a [<-|[]]. split; [reflexivity|exact Hp].
      + intros a. cbn. split; [intros [<-|[]]; left; reflexivity|intros [->|[]]; left; reflexivity].
    - cbn [insert]. destruct (Ha (k', p') (or_introl eq_refl)) as [Ek Hp']. cbn [fst snd] in Ek, Hp'.
      inversion Hs as [|? ? Hr Hall]; subst.
      assert (Gr : good r) by (split; [assumption|intros a X; apply Ha; right; exact X]).
      destruct (Hsep p p' Hp Hp') as [E|E].
      + subst p'. rewrite !less_false by lra. split; [split; assumption|]. intros a. cbn. split; [tauto|]. intros [->|X]; [left; reflexivity|exact X].
      + change (1000 * fst p + snd p) with (key p) in E. change (1000 * fst p' + snd p') with (key p') in E.
        destruct (Rlt_dec (key p') (key p)) as [L|L].
        * rewrite less_true by (rewrite Rabs_right in E by lra; lra). destruct (IH Gr) as [[S1 S2] S3]. split.
          -- split.
             ++ constructor; [exact S1|]. rewrite Forall_forall in *. intros a X. apply S3 in X. destruct X as [->|X]; [exact L|apply Hall; exact X].
             ++ intros a [<-|X]; [split; [reflexivity|exact Hp']|apply S2; exact X].
          -- intros a. cbn [In]. rewrite S3. tauto.
        * assert (L' : key p < key p') by (destruct (Req_dec (key p) (key p')) as [Q|Q]; [rewrite Q, Rminus_eq_0, Rabs_R0 in E; lra|lra]).
          rewrite less_false by lra. rewrite less_true by (rewrite Rabs_left in E by lra; lra). split.
          -- split.
             ++ constructor; [exact Hs|]. constructor; [exact L'|]. rewrite Forall_forall in *. intros a X. specialize (Hall a X). unfold entry_lt in *. cbn [fst] in *. lra.
             ++ intros a [<-|X]; [split; [reflexivity|exact Hp]|apply Ha; exact X].
          -- intros a. cbn [In]. split; [intros [<-|X]; tauto|intros [->|X]; tauto].
  Qed.

  Lemma points_good : good (points vs) /\ forall a, In a (points vs) <-> exists p, In p vs /\ a = (key p, p).
  Proof.
    unfold points. assert (G : forall ws l, incl ws vs -> good l ->
      good (fold_left (fun l p => insert (key p) p l) ws l) /\
      forall a, In a (fold_left (fun l p => insert (key p) p l) ws l) <-> In a l \/ exists p, In p ws /\ a = (key p, p)).
    { induction ws as [|w ws IH]; intros l Hi Hl; cbn [fold_left].
      - split; [exact Hl|]. intros a. split; [tauto|]. intros [X|(p & [] & _)]. exact X.
      - destruct (insert_good w l (Hi w (or_introl eq_refl)) Hl) as [G1 G2].
        destruct (IH (insert (key w) w l) (fun a X => Hi a (or_intror X)) G1) as [G3 G4]. split; [exact G3|]. intros a. rewrite G4, G2. split.
        + intros [[->|X]|(p & X & Y)]; [right; exists w; split; [left; reflexivity|reflexivity]|left; exact X|right; exists p; split; [right; exact X|exact Y]].
        + intros [X|(p & [<-|X] & Y)]; [left; right; exact X|left; left; exact Y|right; exists p; split; assumption]. }
    destruct (G vs [] (fun a X => X)) as [G1 G2]; [split; [constructor|intros a []]|]. split; [exact G1|]. intros a. rewrite G2. split; [intros [[]|X]; exact X|tauto].
  Qed.
End Insert.

Lemma sorted_last l x : StronglySorted entry_lt (l ++ [x]) -> forall a, In a l -> entry_lt a x.
Proof.
  induction l as [|y l IH]; intros H a [].
  - subst y. inversion H as [|? ? _ Hall]; subst. rewrite Forall_forall in Hall. apply Hall, in_or_app. right; left; reflexivity.
  - apply IH; [inversion H; assumption|assumption].
Qed.

Lemma on_line_ok vs A B : separated vs -> on_segment A B vs -> key A < key B -> all_on_line (points vs) = Ok (A, B, true).
Proof.
  intros Hsep (HA & HB & Hseg) Hk. destruct (points_good vs Hsep) as [[Hs He] Hin].
  assert (HAl : In (key A, A) (points vs)) by (apply Hin; eauto). assert (HBl : In (key B, B) (points vs)) by (apply Hin; eauto).
  assert (Kt : forall v, In v vs -> exists t, 0 <= t <= 1 /\ v = (fst A + t * (fst B - fst A), snd A + t * (snd B - snd A)) /\ key v = key A + t * (key B - key A)).
  { intros v Hv. destruct (Hseg v Hv) as (t & Ht & E1 & E2). exists t. split; [exact Ht|]. split; [destruct v; cbn in *; congruence|]. unfold key. rewrite E1, E2. ring. }
  assert (Keq : forall v w, In v vs -> In w vs -> key v = key w -> v = w).
  { intros v w Hv Hw E. destruct (Hsep v w Hv Hw) as [X|X]; [exact X|]. exfalso. unfold key in E. rewrite E, Rminus_eq_0, Rabs_R0 in X. lra. }
  destruct (points vs) as [|[k0 p0] r] eqn:El; [destruct HAl|].
  destruct (He (k0, p0) (or_introl eq_refl)) as [E0 H0]. cbn [fst snd] in E0, H0.
  inversion Hs as [|? ? Hsr Hall]; subst. rewrite Forall_forall in Hall.
  assert (p0 = A).
  { apply Keq; [exact H0|exact HA|]. destruct (Kt p0 H0) as (t & Ht & _ & E). apply Rle_antisym.
    - destruct HAl as [X|X]; [injection X as _ ->; lra|]. specialize (Hall _ X). unfold entry_lt in Hall. cbn [fst] in Hall. lra.
    - rewrite E. assert (0 <= t * (key B - key A)) by nra. lra. }
  subst p0.
  assert (HBr : In (key B, B) r) by (destruct HBl as [X|X]; [injection X as X _; lra|exact X]).
  destruct (exists_last (l := r)) as (r' & [kl pl] & Er); [intros ->; destruct HBr|]. subst r.
  unfold all_on_line. destruct (r' ++ [(kl, pl)]) as [|y ys] eqn:Ey; [destruct r'; discriminate|]. rewrite <- Ey in *. clear Ey y ys.
  rewrite last_last, removelast_last. cbn [snd].
  destruct (He (kl, pl)) as [El2 Hl2]; [right; apply in_or_app; right; left; reflexivity|]. cbn [fst snd] in El2, Hl2.
  assert (pl = B).
  { apply Keq; [exact Hl2|exact HB|]. destruct (Kt pl Hl2) as (t & Ht & _ & E). apply Rle_antisym.
    - rewrite E. nra.
    - apply in_app_or in HBr. destruct HBr as [X|[X|[]]]; [|injection X as _ ->; lra].
      pose proof (sorted_last _ _ Hsr _ X) as Y. unfold entry_lt in Y. cbn [fst] in Y. lra. }
  subst pl. cbv zeta. f_equal. f_equal. apply forallb_forall. intros a Xa.
  assert (Xr : In a (r' ++ [(kl, B)])) by (apply in_or_app; left; exact Xa).
  destruct (He a (or_intror Xr)) as [Ea Ha]. destruct (Kt (snd a) Ha) as (t & Ht & Ev & Ek).
  assert (Lt : key A < key (snd a)) by (specialize (Hall a Xr); unfold entry_lt in Hall; cbn [fst] in Hall; lra).
  assert (Pt : 0 < t) by nra.
  replace (sub (snd a) A) with (scale t (sub B A)) by (rewrite Ev; unfold sub, scale; cbn [fst snd]; f_equal; ring).
  apply angle0_scale; [|exact Pt]. intros X. unfold sub in X. injection X as X1 X2. unfold key in Hk. lra.
Qed.

Lemma interfaces_ok id1 id2 faces A1 B1 A2 B2 : id1 <> id2 ->
  separated (vertices id1 faces) -> on_segment A1 B1 (vertices id1 faces) -> 1000 * fst A1 + snd A1 < 1000 * fst B1 + snd B1 ->
  separated (vertices id2 faces) -> on_segment A2 B2 (vertices id2 faces) -> 1000 * fst A2 + snd A2 < 1000 * fst B2 + snd B2 ->
  getInterfacialLines id1 id2 faces = Ok (true, ((A1, B1), (A2, B2))).
Proof.
  intros Hid S1 O1 K1 S2 O2 K2. unfold getInterfacialLines.
  assert (E : vertices2 id1 id2 faces = vertices id2 faces).
  { unfold vertices2, vertices. apply flat_map_ext. intros f. destruct (Nat.eqb_spec (fst f) id1) as [->|]; [|reflexivity].
    destruct (Nat.eqb_spec id1 id2); [contradiction|reflexivity]. }
  rewrite E, (on_line_ok _ A1 B1 S1 O1 K1). cbn [obind]. rewrite (on_line_ok _ A2 B2 S2 O2 K2). reflexivity.
Qed.

Lemma interfaces_missing id1 id2 faces : vertices id1 faces = [] \/ vertices2 id1 id2 faces = [] ->
  getInterfacialLines id1 id2 faces = UB.
Proof.
  unfold getInterfacialLines. intros [E|E]; rewrite E; [reflexivity|]. cbn [points fold_left all_on_line].
  destruct (all_on_line (points (vertices id1 faces))) as [x| |] eqn:Ex; cbn [obind]; try reflexivity.
  unfold all_on_line in Ex. destruct (points (vertices id1 faces)) as [|[k p] [|y r]]; discriminate.
Qed.

(** The boundary from (0,1000) to (1,0) *)
Definition steep : list face := [(1%nat, ((0, 1000), (1, 0))); (2%nat, ((2, 0), (2, 1)))].
Lemma steep_undefined : getInterfacialLines 1 2 steep = UB.
Proof.
  unfold getInterfacialLines. assert (E : points (vertices 1 steep) = [(key (0, 1000), (0, 1000))]).
  { unfold points, vertices, steep. cbn [flat_map fst snd Nat.eqb app fold_left insert].
    rewrite !less_false by (unfold key; cbn [fst snd]; lra). reflexivity. }
  rewrite E. reflexivity.
Qed.

(** A boundary with a kink: (0,0), (1,1/10), (2,0) *)
Definition kink : list face := [(1%nat, ((0, 0), (1, 1/10))); (1%nat, ((1, 1/10), (2, 0))); (2%nat, ((0, 1), (1, 1))); (2%nat, ((1, 1), (2, 1)))].
Lemma kink_accepted : getInterfacialLines 1 2 kink = Ok (true, (((0, 0), (2, 0)), ((0, 1), (2, 1)))) /\ ~ straight (vertices 1 kink).
Proof.
  split.
  - assert (E1 : points (vertices 1 kink) = [(key (0, 0), (0, 0)); (key (1, 1/10), (1, 1/10)); (key (2, 0), (2, 0))]).
    { unfold points, vertices, kink. cbn [flat_map fst snd Nat.eqb app fold_left insert].
      rewrite (less_true (key (0, 0)) (key (1, 1/10))) by (unfold key; cbn [fst snd]; lra). cbn [insert].
      rewrite (less_true (key (0, 0)) (key (1, 1/10))) by (unfold key; cbn [fst snd]; lra). cbn [insert].
      rewrite (less_false (key (1, 1/10)) (key (1, 1/10))) by lra. cbn [insert].
      rewrite (less_true (key (0, 0)) (key (2, 0))) by (unfold key; cbn [fst snd]; lra). cbn [insert].
      rewrite (less_true (key (1, 1/10)) (key (2, 0))) by (unfold key; cbn [fst snd]; lra). cbn [insert]. reflexivity. }
    assert (E2 : all_on_line (points (vertices2 1 2 kink)) = Ok ((0, 1), (2, 1), true)).
    { change (vertices2 1 2 kink) with [(0, 1); (1, 1); (1, 1); (2, 1)]. apply on_line_ok.
      - intros v w Hv Hw. cbn [In] in Hv, Hw.
        destruct Hv as [<-|[<-|[<-|[<-|[]]]]]; destruct Hw as [<-|[<-|[<-|[<-|[]]]]]; try (left; reflexivity); right; cbn [fst snd];
        (rewrite Rabs_right by lra; lra) || (rewrite Rabs_left by lra; lra).
      - split; [left; reflexivity|]. split; [right; right; right; left; reflexivity|]. intros v Hv. cbn [In] in Hv.
        destruct Hv as [<-|[<-|[<-|[<-|[]]]]]; [exists 0|exists (1/2)|exists (1/2)|exists 1]; cbn [fst snd]; repeat split; lra.
      - unfold key. cbn [fst snd]. lra. }
    unfold getInterfacialLines. rewrite E1, E2. cbn [all_on_line last snd removelast forallb obind andb].
    assert (A : is_angle_small (sub (2, 0) (0, 0)) (sub (1, 1/10) (0, 0)) 0 = true).
    { apply angle0. unfold norm2, dot2, sub. cbn [fst snd].
      replace ((2 - 0) * (2 - 0) + (0 - 0) * (0 - 0)) with (2 ^ 2) by ring. rewrite sqrt_pow2 by lra.
      assert (sqrt ((1 - 0) * (1 - 0) + (1/10 - 0) * (1/10 - 0)) <= 101/100); [|lra].
      rewrite <- (sqrt_pow2 (101/100)) by lra. apply sqrt_le_1_alt. lra. }
    rewrite A. reflexivity.
  - intros H. specialize (H (0, 0) (1, 1/10) (2, 0)). cbn in H.
    assert (X : (1 - 0) * (0 - 0) = (1 / 10 - 0) * (2 - 0)) by (apply H; tauto). lra.
Qed.
