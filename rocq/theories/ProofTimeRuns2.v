(** Energy and convergence of the theta method over whole runs. *)
From Verif Require Import Prelude BigSum ModelTimeIntegration SpecTimeIntegration SpecTimeRuns ProofTimeIntegration
  ProofTimeIntegration2 ProofTimeIntegration3 ProofTimeIntegration4 ProofTimeRuns.
Local Open Scope R_scope.

Lemma wdot_plus_l n w x y z : wdot n w (fun i => x i + y i) z = wdot n w x z + wdot n w y z.
Proof. unfold wdot. rewrite <- sumf_plus. apply sumf_ext. intros. ring. Qed.
Lemma wdot_scal_l n w c x z : wdot n w (fun i => c * x i) z = c * wdot n w x z.
Proof. unfold wdot. rewrite <- sumf_scal. apply sumf_ext. intros. ring. Qed.
Lemma wdot_comm n w x y : wdot n w x y = wdot n w y x.
Proof. apply sumf_ext. intros. ring. Qed.
Lemma wdot_ext n w x y x' y' : (forall i, (i < n)%nat -> x i = x' i) -> (forall i, (i < n)%nat -> y i = y' i) -> wdot n w x y = wdot n w x' y'.
Proof. intros H K. apply sumf_ext. intros i Hi. rewrite H, K by exact Hi. reflexivity. Qed.

(** One step: the balance of energy. *)
Lemma theta_balance n A w theta h e e' tau :
  (forall i, (i < n)%nat -> e' i - e i = h * sumf n (fun j => A i j * (theta * e' j + (1 - theta) * e j)) + tau i) ->
  let g := fun i => theta * e' i + (1 - theta) * e i in
  wdot n w e' e' - wdot n w e e
  = 2 * h * wdot n w g (fun i => sumf n (fun j => A i j * g j)) + 2 * wdot n w tau g
    - (2 * theta - 1) * wdot n w (fun i => e' i - e i) (fun i => e' i - e i).
Proof.
  intros H g.
  assert (X : wdot n w (fun i => e' i - e i) g = h * wdot n w g (fun i => sumf n (fun j => A i j * g j)) + wdot n w tau g).
  { unfold wdot. rewrite <- sumf_scal, <- sumf_plus. apply sumf_ext. intros i Hi. rewrite H by exact Hi. fold (g i).
    change (fun j => A i j * (theta * e' j + (1 - theta) * e j)) with (fun j => A i j * g j). ring. }
  assert (Y : 2 * wdot n w (fun i => e' i - e i) g = wdot n w e' e' - wdot n w e e + (2 * theta - 1) * wdot n w (fun i => e' i - e i) (fun i => e' i - e i)).
  { unfold wdot. rewrite <- !sumf_scal. rewrite <- sumf_minus, <- sumf_plus. apply sumf_ext. intros i _. unfold g. ring. }
  lra.
Qed.

Section Norm.
  Variables (n : nat) (w : nat -> R).
  Hypothesis Hw : forall i, (i < n)%nat -> 0 <= w i.
  Lemma wdot_pos x : 0 <= wdot n w x x.
  Proof. apply sumf_nonneg. intros i Hi. specialize (Hw i Hi). rewrite Rmult_assoc. apply Rmult_le_pos; [exact Hw|]. nra. Qed.
  Lemma wnorm_sq x : wnorm n w x * wnorm n w x = wdot n w x x.
  Proof. apply sqrt_sqrt, wdot_pos. Qed.
  Lemma wnorm_pos x : 0 <= wnorm n w x.
  Proof. apply sqrt_pos. Qed.
  Lemma wnorm_2 x : wnorm n w x = norm2 n (fun i => sqrt (w i) * x i).
  Proof.
    unfold wnorm, norm2, wdot. f_equal. apply sumf_ext. intros i Hi.
    replace (sqrt (w i) * x i * (sqrt (w i) * x i)) with (sqrt (w i) * sqrt (w i) * x i * x i) by ring.
    rewrite sqrt_sqrt by (apply Hw, Hi). reflexivity.
  Qed.
  Lemma wdot_cs x y : wdot n w x y <= wnorm n w x * wnorm n w y.
  Proof.
    rewrite !wnorm_2. eapply Rle_trans; [|apply norm2_cs]. eapply Rle_trans; [|apply Rle_abs]. right.
    unfold wdot. apply sumf_ext. intros i Hi.
    replace (sqrt (w i) * x i * (sqrt (w i) * y i)) with (sqrt (w i) * sqrt (w i) * x i * y i) by ring.
    rewrite sqrt_sqrt by (apply Hw, Hi). reflexivity.
  Qed.
  Lemma wnorm_triangle a c x y : 0 <= a -> 0 <= c -> wnorm n w (fun i => a * x i + c * y i) <= a * wnorm n w x + c * wnorm n w y.
  Proof.
    intros Ha Hc. assert (P := wnorm_pos x). assert (Q := wnorm_pos y).
    apply Rsqr_incr_0_var; [|assert (0 <= a * wnorm n w x) by (apply Rmult_le_pos; assumption); assert (0 <= c * wnorm n w y) by (apply Rmult_le_pos; assumption); lra].
    unfold Rsqr. rewrite wnorm_sq.
    assert (E : wdot n w (fun i => a * x i + c * y i) (fun i => a * x i + c * y i) = a * a * wdot n w x x + c * c * wdot n w y y + 2 * (a * c) * wdot n w x y).
    { unfold wdot. rewrite <- !sumf_scal, <- !sumf_plus. apply sumf_ext. intros. ring. }
    rewrite E, <- !wnorm_sq. assert (C := wdot_cs x y).
    assert (0 <= a * c) by (apply Rmult_le_pos; assumption).
    assert (a * c * wdot n w x y <= a * c * (wnorm n w x * wnorm n w y)) by (apply Rmult_le_compat_l; assumption). lra.
  Qed.
  Lemma wnorm_bound x B : 0 <= B -> (forall i, (i < n)%nat -> Rabs (x i) <= B) -> wnorm n w x <= B * sqrt (sumf n w).
  Proof.
    intros HB H. unfold wnorm. rewrite <- (sqrt_Rsqr B HB), <- sqrt_mult_alt by (apply Rle_0_sqr).
    apply sqrt_le_1_alt. unfold wdot. rewrite <- sumf_scal. apply sumf_le. intros i Hi.
    assert (Q := H i Hi). assert (x i * x i <= B * B).
    { apply abs_both in Q. nra. }
    assert (W := Hw i Hi). unfold Rsqr. assert (w i * (x i * x i) <= w i * (B * B)) by (apply Rmult_le_compat_l; assumption). lra.
  Qed.

  Lemma theta_growth A theta h e e' tau : dissipative n A w -> 0 <= h -> 1 / 2 <= theta <= 1 ->
    (forall i, (i < n)%nat -> e' i - e i = h * sumf n (fun j => A i j * (theta * e' j + (1 - theta) * e j)) + tau i) ->
    wnorm n w e' <= wnorm n w e + 2 * wnorm n w tau.
  Proof.
    intros HA Hh Ht H. assert (B := theta_balance n A w theta h e e' tau H). cbn zeta in B.
    set (g := fun i => theta * e' i + (1 - theta) * e i) in *.
    assert (D := HA g). assert (C := wdot_cs tau g). assert (T := wnorm_triangle theta (1 - theta) e' e ltac:(lra) ltac:(lra)). fold g in T.
    assert (S := wdot_pos (fun i => e' i - e i)).
    rewrite <- !wnorm_sq in B. rewrite (wnorm_sq (fun i => e' i - e i)) in B.
    assert (P1 := wnorm_pos e). assert (P2 := wnorm_pos e'). assert (P3 := wnorm_pos tau).
    set (a := wnorm n w e') in *. set (c := wnorm n w e) in *. set (t := wnorm n w tau) in *.
    destruct (Rle_or_lt a c) as [L|L]; [lra|].
    assert (X1 : h * wdot n w g (fun i => sumf n (fun j => A i j * g j)) <= 0).
    { assert (0 <= h * - wdot n w g (fun i => sumf n (fun j => A i j * g j))) by (apply Rmult_le_pos; lra). lra. }
    assert (X2 : 0 <= (2 * theta - 1) * wdot n w (fun i => e' i - e i) (fun i => e' i - e i)) by (apply Rmult_le_pos; lra).
    assert (X3 : t * wnorm n w g <= t * a).
    { apply Rmult_le_compat_l; [exact P3|]. eapply Rle_trans; [exact T|]. nra. }
    assert (X4 : (a - c) * (a + c) <= 2 * t * (a + c)) by nra.
    assert (a - c <= 2 * t) by (apply Rmult_le_reg_r with (a + c); [lra|exact X4]). lra.
  Qed.
End Norm.

Section Run.
  Variables (solve : mat -> vec -> vec -> outcome vec) (theta : R) (n : nat) (A : mat) (b w : vec).
  Hypothesis HS : solves n 0 solve.

  Lemma theta_form h f r : theta_step solve theta n h f A b 0 h = Ok r ->
    forall i, (i < n)%nat -> sp_f r i - f i = h * (sumf n (fun j => A i j * (theta * sp_f r j + (1 - theta) * f j)) + b i).
  Proof.
    intros R i Hi. assert (E := theta_exact solve theta n h f A b 0 h r HS R i Hi). unfold theta_defect in E.
    assert (T : sp_dt r = h). { apply theta_inv in R. destruct R as ([[? ?]|[_ ?]] & _); auto. }
    rewrite T in E. rewrite (sumf_ext n (fun j => A i j * (theta * sp_f r j + (1 - theta) * f j)) (fun j => theta * (A i j * sp_f r j) + (1 - theta) * (A i j * f j))) by (intros; ring).
    rewrite sumf_plus, !sumf_scal. lra.
  Qed.

  (** Distance to a steady state: balance of one step. *)
  Lemma theta_energy h f r g : steady n A b g -> theta_step solve theta n h f A b 0 h = Ok r ->
    let x := fun i => theta * (sp_f r i - g i) + (1 - theta) * (f i - g i) in
    wdot n w (fun i => sp_f r i - g i) (fun i => sp_f r i - g i)
    = wdot n w (fun i => f i - g i) (fun i => f i - g i)
      + 2 * h * wdot n w x (fun i => sumf n (fun j => A i j * x j))
      - (2 * theta - 1) * wdot n w (fun i => sp_f r i - f i) (fun i => sp_f r i - f i).
  Proof.
    intros G R x.
    assert (B := theta_balance n A w theta h (fun i => f i - g i) (fun i => sp_f r i - g i) (fun _ => 0)). cbn zeta beta in B.
    assert (Z : wdot n w (fun _ => 0) x = 0) by (apply sumf_zero; intros; ring).
    fold x in B. rewrite Z in B.
    rewrite (wdot_ext n w (fun i => sp_f r i - g i - (f i - g i)) (fun i => sp_f r i - g i - (f i - g i)) (fun i => sp_f r i - f i) (fun i => sp_f r i - f i)) in B by (intros; ring).
    enough (forall i, (i < n)%nat -> sp_f r i - g i - (f i - g i) = h * sumf n (fun j => A i j * (theta * (sp_f r j - g j) + (1 - theta) * (f j - g j))) + 0) as Q.
    { specialize (B Q). unfold x in *. cbn beta in *. lra. }
    intros i Hi. assert (E := theta_form h f r R i Hi). assert (S := G i Hi). unfold rhs in S.
    rewrite (sumf_ext n (fun j => A i j * (theta * (sp_f r j - g j) + (1 - theta) * (f j - g j))) (fun j => A i j * (theta * sp_f r j + (1 - theta) * f j) - A i j * g j)) by (intros; ring).
    rewrite sumf_minus. replace (sumf n (fun j => A i j * g j)) with (- b i) by lra. lra.
  Qed.

  Hypothesis Hw : forall i, (i < n)%nat -> 0 <= w i.
  Hypothesis HA : dissipative n A w.
  Hypothesis Ht : 1 / 2 <= theta <= 1.

  Lemma theta_run_stable former m s s' g : steady n A b g -> stream_times (theta_step solve theta n) former A b m s = Ok s' ->
    wnorm n w (fun i => sg_f s' i - g i) <= wnorm n w (fun i => sg_f s i - g i).
  Proof.
    intros G E.
    refine (stream_ind n A b (theta_step solve theta n) former (fun _ f => wnorm n w (fun i => f i - g i) <= wnorm n w (fun i => sg_f s i - g i)) m s s' (theta_step_ok solve theta n A b _ HS (zero_conserved n A b)) (Rle_refl _) _ E).
    intros k f r _ Hh IH R. eapply Rle_trans; [|exact IH]. apply sqrt_le_1_alt.
    assert (B := theta_energy _ f r g G R). cbn zeta in B. rewrite B.
    assert (D := HA (fun i => theta * (sp_f r i - g i) + (1 - theta) * (f i - g i))). cbn beta in D.
    match type of D with ?d <= 0 => set (dd := d) in * end.
    assert (0 <= sg_dt s * - dd) by (apply Rmult_le_pos; lra).
    assert (0 <= (2 * theta - 1) * wdot n w (fun i => sp_f r i - f i) (fun i => sp_f r i - f i)) by (apply Rmult_le_pos; [lra|apply wdot_pos, Hw]).
    lra.
  Qed.

  (** Truncation error of one step. *)
  Lemma theta_truncation D t h M2 M3 i : solution n A b D -> (i < n)%nat -> 0 <= h -> 
    (forall s, t <= s <= t + h -> Rabs (D 2%nat s i) <= M2) -> (forall s, t <= s <= t + h -> Rabs (D 3%nat s i) <= M3) ->
    Rabs (D 0%nat (t + h) i - D 0%nat t i - h * (theta * D 1%nat (t + h) i + (1 - theta) * D 1%nat t i))
    <= h ^ 2 * ((theta - 1 / 2) * M2 + (1 / 6 + theta / 2) * h * M3).
  Proof.
    intros HD Hi Hh H2 H3.
    assert (S := solution_shift n A b D t HD).
    assert (T0 := taylor_bound M3 3 (fun k s => D k (s + t) i) h (fun k s => proj1 S k s i Hi) Hh ltac:(intros s Hs; apply H3; lra)).
    assert (T1 := taylor_bound M3 2 (fun k s => D (Datatypes.S k) (s + t) i) h (fun k s => proj1 S (Datatypes.S k) s i Hi) Hh ltac:(intros s Hs; apply H3; lra)).
    assert (Q := H2 t ltac:(lra)). cbn [sumf pow fact INR Nat.mul Nat.add] in T0, T1.
    rewrite !Rplus_0_l in T0, T1. rewrite (Rplus_comm h t) in T0, T1.
    replace (h * (h * (h * 1)) / (1 + 1 + 1 + 1 + 1 + 1)) with (h * h * h / 6) in T0 by field.
    replace (h * (h * 1) / (1 + 1)) with (h * h / 2) in T0, T1 by field.
    set (y0 := D 0%nat (t + h) i) in *. set (y1 := D 1%nat (t + h) i) in *. set (d0 := D 0%nat t i) in *. set (d1 := D 1%nat t i) in *. set (d2 := D 2%nat t i) in *.
    set (R0 := y0 - (1 / 1 * d0 + h * 1 / 1 * d1 + h * h / 2 * d2)) in *.
    set (R1 := y1 - (1 / 1 * d1 + h * 1 / 1 * d2)) in *.
    replace (y0 - d0 - h * (theta * y1 + (1 - theta) * d1)) with (R0 - theta * h * R1 - (theta - 1 / 2) * (h * h) * d2) by (unfold R0, R1; field).
    apply abs_both in T0, T1, Q. apply abs_le.
    assert (X1 : - (theta * h * (M3 * (h * h / 2))) <= theta * h * R1 <= theta * h * (M3 * (h * h / 2))).
    { assert (Y : 0 <= theta * h) by (apply Rmult_le_pos; lra).
      assert (Y1 := Rmult_le_compat_l _ _ _ Y (proj1 T1)). assert (Y2 := Rmult_le_compat_l _ _ _ Y (proj2 T1)). lra. }
    assert (X2 : - ((theta - 1 / 2) * (h * h) * M2) <= (theta - 1 / 2) * (h * h) * d2 <= (theta - 1 / 2) * (h * h) * M2).
    { assert (Y : 0 <= (theta - 1 / 2) * (h * h)) by (apply Rmult_le_pos; [lra|nra]).
      assert (Y1 := Rmult_le_compat_l _ _ _ Y (proj1 Q)). assert (Y2 := Rmult_le_compat_l _ _ _ Y (proj2 Q)). lra. }
    replace (h ^ 2 * ((theta - 1 / 2) * M2 + (1 / 6 + theta / 2) * h * M3)) with ((theta - 1 / 2) * (h * h) * M2 + theta * h * (M3 * (h * h / 2)) + M3 * (h * h * h / 6)) by field.
    lra.
  Qed.

  Lemma theta_global D M2 M3 former m s s' : solution n A b D -> (forall i, (i < n)%nat -> D 0%nat 0 i = sg_f s i) ->
    (forall t i, 0 <= t <= INR m * sg_dt s -> (i < n)%nat -> Rabs (D 2%nat t i) <= M2) ->
    (forall t i, 0 <= t <= INR m * sg_dt s -> (i < n)%nat -> Rabs (D 3%nat t i) <= M3) -> 0 <= M2 -> 0 <= M3 ->
    stream_times (theta_step solve theta n) former A b m s = Ok s' ->
    let h := sg_dt s in let T := INR m * h in
    wnorm n w (fun i => sg_f s' i - D 0%nat T i) <= 2 * T * h * ((theta - 1 / 2) * M2 + (1 / 6 + theta / 2) * h * M3) * sqrt (sumf n w).
  Proof.
    intros HD H0 H2 H3 P2 P3 E. set (h := sg_dt s) in *. cbn zeta.
    set (B := h ^ 2 * ((theta - 1 / 2) * M2 + (1 / 6 + theta / 2) * h * M3)).
    assert (X : wnorm n w (fun i => sg_f s' i - D 0%nat (INR m * h) i) <= INR m * (2 * (B * sqrt (sumf n w)))).
    { refine (stream_ind n A b (theta_step solve theta n) former (fun k f => wnorm n w (fun i => f i - D 0%nat (INR k * h) i) <= INR k * (2 * (B * sqrt (sumf n w)))) m s s' (theta_step_ok solve theta n A b _ HS (zero_conserved n A b)) _ _ E).
      - cbn [INR]. rewrite !Rmult_0_l. unfold wnorm. replace (wdot n w _ _) with 0; [rewrite sqrt_0; lra|].
        symmetry. apply sumf_zero. intros i Hi. rewrite H0 by exact Hi. ring.
      - intros k f r Hk Hh IH R. fold h in Hh, R.
        assert (Km : INR k + 1 <= INR m) by (rewrite <- S_INR; apply le_INR; lia).
        assert (K0 : 0 <= INR k) by apply pos_INR.
        assert (Kh : 0 <= INR k * h) by (apply Rmult_le_pos; lra).
        assert (Kh' : INR k * h + h <= INR m * h) by nra.
        set (t := INR k * h) in *. replace (INR (S k) * h) with (t + h) by (unfold t; rewrite S_INR; ring).
        set (tau := fun i => - (D 0%nat (t + h) i - D 0%nat t i - h * (theta * D 1%nat (t + h) i + (1 - theta) * D 1%nat t i))).
        assert (B0 : 0 <= B).
        { unfold B. apply Rmult_le_pos; [apply pow_le; lra|]. assert (0 <= (theta - 1 / 2) * M2) by (apply Rmult_le_pos; lra).
          assert (0 <= (1 / 6 + theta / 2) * h * M3) by (apply Rmult_le_pos; [apply Rmult_le_pos; lra|lra]). lra. }
        assert (TB : wnorm n w tau <= B * sqrt (sumf n w)).
        { apply wnorm_bound; [exact Hw|exact B0|]. intros i Hi. unfold tau. rewrite Rabs_Ropp.
          apply theta_truncation; [exact HD|exact Hi|lra| |]; intros u Hu; [apply H2|apply H3]; auto; lra. }
        assert (Q := theta_growth n w Hw A theta h (fun i => f i - D 0%nat t i) (fun i => sp_f r i - D 0%nat (t + h) i) tau HA ltac:(lra) Ht).
        assert (F : wnorm n w (fun i => sp_f r i - D 0%nat (t + h) i) <= wnorm n w (fun i => f i - D 0%nat t i) + 2 * wnorm n w tau).
        { apply Q. intros i Hi. cbn beta. assert (Z := theta_form h f r R i Hi). unfold tau.
          rewrite (proj2 HD (t + h) i Hi), (proj2 HD t i Hi). unfold rhs.
          rewrite (sumf_ext n (fun j => A i j * (theta * (sp_f r j - D 0%nat (t + h) j) + (1 - theta) * (f j - D 0%nat t j)))
            (fun j => A i j * (theta * sp_f r j + (1 - theta) * f j) - (theta * (A i j * D 0%nat (t + h) j) + (1 - theta) * (A i j * D 0%nat t j)))) by (intros; ring).
          rewrite sumf_minus, sumf_plus, !sumf_scal. lra. }
        rewrite S_INR. lra. }
    eapply Rle_trans; [exact X|]. right. unfold B. ring.
  Qed.
End Run.
