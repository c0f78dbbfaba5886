(** Convergence of the Runge-Kutta integrator and of the theta method over whole runs; energy of the theta method. *)
From Verif Require Import Prelude BigSum ModelTimeIntegration SpecTimeIntegration SpecTimeRuns ProofTimeIntegration
  ProofTimeIntegration2 ProofTimeIntegration3 ProofTimeIntegration4.
Local Open Scope R_scope.

(** *** Runs *)

Lemma stream_first step former A b s s' : sedg_stream step former A b s = Ok s' ->
  exists r, step (sg_dt s) (sg_f s) A b 0 (sg_dt s) = Ok r /\ sg_f s' = sp_f r /\ 0 < sp_t r.
Proof.
  unfold sedg_stream. destruct (step (sg_dt s) (sg_f s) A b 0 (sg_dt s)) as [r| |] eqn:E; [|discriminate|discriminate].
  cbn [obind]. intros H. exists r. split; [reflexivity|].
  match type of H with obind ?q _ = _ => destruct q as [q0| |]; [|discriminate|discriminate] end.
  cbn [obind] in H. unfold setTimeStepSize in H. destruct (Rlt_dec 0 (sp_t r)) as [P|P]; [|discriminate].
  cbn [obind] in H. injection H as <-. split; [reflexivity|exact P].
Qed.

(** Induction over a run with the fixed time step. *)
Lemma stream_ind n A b step former (I : nat -> vec -> Prop) m s s' :
  step_ok n A b (fun _ => 0) step -> I 0%nat (sg_f s) ->
  (forall k f r, (k < m)%nat -> 0 < sg_dt s -> I k f -> step (sg_dt s) f A b 0 (sg_dt s) = Ok r -> I (S k) (sp_f r)) ->
  stream_times step former A b m s = Ok s' -> I m (sg_f s').
Proof.
  intros K I0 IS. revert s'. induction m as [|m IH]; intros s' H.
  - cbn in H. injection H as <-. exact I0.
  - cbn [stream_times] in H. destruct (stream_times step former A b m s) as [s1| |] eqn:E; [|discriminate|discriminate].
    cbn [obind] in H. assert (X := IH (fun k f r Hk => IS k f r ltac:(lia)) s1 eq_refl).
    apply (stream_times_inv n A b (fun _ => 0)) in E; [|exact K]. destruct E as (D & _ & _).
    destruct (stream_first _ _ _ _ _ _ H) as (r & R & F & P). rewrite D in R. rewrite F.
    apply (IS m (sg_f s1)); [lia| |exact X|exact R].
    destruct (K _ _ _ R) as (_ & T & _). rewrite <- T. exact P.
Qed.

Lemma zero_conserved n A b : conserved n A b (fun _ => 0).
Proof. intros x. apply sumf_zero. intros. ring. Qed.

(** *** Runge-Kutta *)

Lemma exp_taylor m x : 0 <= x -> sumf m (fun k => x ^ k / INR (fact k)) <= exp x.
Proof.
  revert x. induction m as [|m IH]; intros x Hx.
  - cbn. left. apply exp_pos.
  - enough (0 <= exp x - sumf (S m) (fun k => x ^ k / INR (fact k) * 1)) as Q.
    { rewrite (sumf_ext (S m) _ (fun k => x ^ k / INR (fact k) * 1)) by (intros; ring). lra. }
    apply (increasing_on (fun s => exp s - sumf (S m) (fun k => s ^ k / INR (fact k) * 1)) (fun s => exp s - sumf m (fun k => s ^ k / INR (fact k) * 1)) x Hx).
    + rewrite exp_0, sumf_S_first. rewrite (sumf_zero m) by (intros; cbn [pow]; unfold Rdiv; ring). cbn. field.
    + intros s _. apply (derivable_pt_lim_minus exp (fun s => sumf (S m) (fun k => s ^ k / INR (fact k) * 1)));
        [apply derivable_pt_lim_exp|apply (derivable_taylor m (fun _ => 1))].
    + intros s Hs. rewrite (sumf_ext m _ (fun k => s ^ k / INR (fact k))) by (intros; ring). assert (Q := IH s ltac:(lra)). lra.
Qed.

Lemma sumf_abs_le n f : Rabs (sumf n f) <= sumf n (fun i => Rabs (f i)).
Proof.
  induction n as [|n IH]; cbn [sumf]; [rewrite Rabs_R0; lra|].
  eapply Rle_trans; [apply Rabs_triang|]. lra.
Qed.

Lemma derivative_gap n A b L f g E : bounded_rows n A L -> 0 <= L -> 0 <= E -> (forall i, (i < n)%nat -> Rabs (f i - g i) <= E) ->
  forall k i, (i < n)%nat -> Rabs (derivative n A b f k i - derivative n A b g k i) <= L ^ k * E.
Proof.
  intros HA HL HE H0.
  assert (P : forall x y B i, 0 <= B -> (i < n)%nat -> (forall j, (j < n)%nat -> Rabs (x j - y j) <= B) ->
    Rabs (sumf n (fun j => A i j * x j) - sumf n (fun j => A i j * y j)) <= L * B).
  { intros x y B i HB Hi H. rewrite <- sumf_minus. eapply Rle_trans; [apply sumf_abs_le|].
    apply Rle_trans with (sumf n (fun j => Rabs (A i j) * B)).
    - apply sumf_le. intros j Hj. replace (A i j * x j - A i j * y j) with (A i j * (x j - y j)) by ring.
      rewrite Rabs_mult. apply Rmult_le_compat_l; [apply Rabs_pos|apply H, Hj].
    - rewrite sumf_scal_r. apply Rmult_le_compat_r; [exact HB|apply HA, Hi]. }
  induction k as [|k IH]; intros i Hi.
  - cbn [derivative pow]. rewrite Rmult_1_l. apply H0, Hi.
  - destruct k as [|k].
    + cbn [derivative pow]. unfold rhs.
      replace (_ + b i - (_ + b i)) with (sumf n (fun j => A i j * f j) - sumf n (fun j => A i j * g j)) by ring.
      rewrite Rmult_1_r. apply P; auto.
    + change (derivative n A b f (S (S k)) i) with (sumf n (fun j => A i j * derivative n A b f (S k) j)).
      change (derivative n A b g (S (S k)) i) with (sumf n (fun j => A i j * derivative n A b g (S k) j)).
      replace (L ^ S (S k) * E) with (L * (L ^ S k * E)) by (cbn [pow]; ring). apply P; auto.
      apply Rmult_le_pos; [apply pow_le, HL|exact HE].
Qed.

Definition kappa : R := 1 + / 10000000000.
Lemma coef_growth x : 0 <= x -> sumf 6 (fun k => Rabs (rk_coef k) * x ^ k) <= exp (kappa * x).
Proof.
  intros Hx. eapply Rle_trans; [|apply (exp_taylor 6)]; [|unfold kappa; lra].
  destruct rk_coef_ok as [C0 [C C5]]. apply sumf_le. intros k Hk.
  rewrite Rpow_mult_distr. unfold Rdiv. rewrite (Rmult_comm (kappa ^ k)), Rmult_assoc, (Rmult_comm (Rabs _)).
  apply Rmult_le_compat_l; [apply pow_le, Hx|].
  destruct k as [|[|[|[|[|[|k]]]]]]; [..|lia].
  - rewrite C0, Rabs_R1. cbn. lra.
  - assert (Q := C 1%nat ltac:(lia)). apply abs_both in Q. apply abs_le. cbn [fact INR pow Nat.mul Nat.add] in *. unfold kappa. lra.
  - assert (Q := C 2%nat ltac:(lia)). apply abs_both in Q. apply abs_le. cbn [fact INR pow Nat.mul Nat.add] in *. unfold kappa. lra.
  - assert (Q := C 3%nat ltac:(lia)). apply abs_both in Q. apply abs_le. cbn [fact INR pow Nat.mul Nat.add] in *. unfold kappa. lra.
  - assert (Q := C 4%nat ltac:(lia)). apply abs_both in Q. apply abs_le. rewrite INR_IZR_INZ in *. cbn [fact Nat.mul Nat.add Z.of_nat Pos.of_succ_nat Pos.succ] in *. cbn [pow]. unfold kappa. lra.
  - apply abs_both in C5. apply abs_le. rewrite INR_IZR_INZ in *. cbn [fact Nat.mul Nat.add Z.of_nat Pos.of_succ_nat Pos.succ] in *. cbn [pow]. unfold kappa. lra.
Qed.

Lemma rk_gap n A b h L f g E i : bounded_rows n A L -> 0 <= L -> 0 <= h -> 0 <= E -> (forall i, (i < n)%nat -> Rabs (f i - g i) <= E) -> (i < n)%nat ->
  Rabs (fst (rk_loop n A b h 4 1 (rk_first n A b h f)) i - fst (rk_loop n A b h 4 1 (rk_first n A b h g)) i) <= exp (kappa * (h * L)) * E.
Proof.
  intros HA HL Hh HE H Hi. rewrite !rk_taylor by exact Hi. rewrite <- sumf_minus.
  eapply Rle_trans; [apply sumf_abs_le|].
  apply Rle_trans with (sumf 6 (fun k => Rabs (rk_coef k) * (h * L) ^ k * E)).
  - apply sumf_le. intros k _.
    replace (rk_coef k * h ^ k * derivative n A b f k i - rk_coef k * h ^ k * derivative n A b g k i)
      with (rk_coef k * h ^ k * (derivative n A b f k i - derivative n A b g k i)) by ring.
    rewrite !Rabs_mult, (Rabs_pos_eq (h ^ k)) by (apply pow_le, Hh). rewrite Rpow_mult_distr.
    replace (Rabs (rk_coef k) * (h ^ k * L ^ k) * E) with (Rabs (rk_coef k) * h ^ k * (L ^ k * E)) by ring.
    apply Rmult_le_compat_l; [apply Rmult_le_pos; [apply Rabs_pos|apply pow_le, Hh]|].
    apply derivative_gap; assumption.
  - rewrite sumf_scal_r. apply Rmult_le_compat_r; [exact HE|]. apply coef_growth. apply Rmult_le_pos; assumption.
Qed.

Lemma solution_shift n A b D c : solution n A b D -> solution n A b (fun k s => D k (s + c)).
Proof.
  intros [H1 H2]. split.
  - intros k t i Hi. replace (D (S k) (t + c) i) with (D (S k) (t + c) i * 1) by ring.
    apply (derivable_pt_lim_comp (fun s => s + c) (fun s => D k s i)); [|apply H1, Hi].
    replace 1 with (1 + 0) by ring. apply (derivable_pt_lim_plus (fun s => s) (fun _ => c)); [apply derivable_pt_lim_id|apply derivable_pt_lim_const].
  - intros t i Hi. apply H2, Hi.
Qed.

Lemma exp_nat k y : exp y ^ k = exp (INR k * y).
Proof.
  induction k as [|k IH]; [cbn; rewrite Rmult_0_l, exp_0; reflexivity|].
  cbn [pow]. rewrite IH, <- exp_plus, S_INR. f_equal. ring.
Qed.

Lemma rk_global n A b L M former m s D : bounded_rows n A L -> 0 <= L -> 0 < sg_dt s -> solution n A b D ->
  (forall i, (i < n)%nat -> D 0%nat 0 i = sg_f s i) ->
  (forall k t i, (1 <= k <= 5)%nat -> 0 <= t <= INR m * sg_dt s -> (i < n)%nat -> Rabs (D k t i) <= M) ->
  exists s', stream_times (rk5_step n) former A b m s = Ok s' /\ forall i, (i < n)%nat ->
    let h := sg_dt s in let T := INR m * h in
    Rabs (sg_f s' i - D 0%nat T i)
    <= T * (M * (h ^ 4 / 70 + / 100000000000000000000 * (1 + h + h ^ 2 + h ^ 3))) * exp (kappa * (L * T)).
Proof.
  intros HA HL Hh HD H0 HM. destruct (rk5_stream_times_runs n A b former m s Hh) as [s' E]. exists s'. split; [exact E|].
  set (h := sg_dt s) in *. cbn zeta.
  set (del := h * (M * (h ^ 4 / 70 + / 100000000000000000000 * (1 + h + h ^ 2 + h ^ 3)))).
  set (G := exp (kappa * (h * L))).
  assert (X : forall i, (i < n)%nat -> Rabs (sg_f s' i - D 0%nat (INR m * h) i) <= INR m * del * G ^ m).
  { refine (stream_ind n A b (rk5_step n) former (fun k f => forall i, (i < n)%nat -> Rabs (f i - D 0%nat (INR k * h) i) <= INR k * del * G ^ k) m s s' (rk5_step_ok n A b _ (zero_conserved n A b)) _ _ E).
    - intros i Hi. cbn [INR]. rewrite !Rmult_0_l, H0 by exact Hi. rewrite Rminus_diag_eq, Rabs_R0 by reflexivity. lra.
    - intros k f r Hk _ IH R i Hi. apply rk5_inv in R. fold h in R. destruct R as (T & _ & R).
      assert (S : sp_dt r = h) by (destruct T as [[? ?]|[_ ?]]; auto). rewrite S in R. rewrite R. clear T S R.
      assert (Km : INR k + 1 <= INR m) by (rewrite <- S_INR; apply le_INR; lia).
      assert (K0 : 0 <= INR k) by apply pos_INR.
      assert (Kh : 0 <= INR k * h) by nra.
      assert (Kh' : INR k * h + h <= INR m * h) by nra.
      assert (M0 : 0 <= M).
      { eapply Rle_trans; [apply Rabs_pos|apply (HM 1%nat 0 i)]; [lia|split; nra|exact Hi]. }
      assert (P1 : 0 <= h ^ 4) by (apply pow_le; lra). assert (P2 : 0 <= h ^ 2) by (apply pow_le; lra). assert (P3 : 0 <= h ^ 3) by (apply pow_le; lra).
      assert (Dl : 0 <= del) by (unfold del; apply Rmult_le_pos; [lra|]; apply Rmult_le_pos; [exact M0|]; lra).
      assert (G1 : 1 <= G).
      { unfold G. rewrite <- exp_0. assert (Q : 0 <= kappa * (h * L)) by (unfold kappa; nra).
        destruct Q as [Q|Q]; [left; apply exp_increasing, Q|rewrite <- Q; lra]. }
      assert (GK : 1 <= G ^ S k) by (apply pow_R1_Rle, G1).
      set (g := D 0%nat (INR k * h)).
      assert (GE : 0 <= INR k * del * G ^ k) by (apply Rmult_le_pos; [nra|apply pow_le; lra]).
      assert (Q1 := rk_gap n A b h L f g (INR k * del * G ^ k) i HA HL ltac:(lra) GE IH Hi). fold G in Q1.
      assert (Q2 := rk_local_error n A b h g (fun j t => D j (t + INR k * h)) M i (solution_shift n A b D (INR k * h) HD)
        ltac:(intros j Hj; cbn beta; rewrite Rplus_0_l; reflexivity) Hi ltac:(lra)
        ltac:(intros t Ht; apply HM; [lia|lra|exact Hi])). cbn beta in Q2.
      replace (h + INR k * h) with (INR (S k) * h) in Q2 by (rewrite S_INR; ring).
      assert (Q3 : sumf 4 (fun j => h ^ S j * Rabs (D (S j) (0 + INR k * h) i)) <= h * (M * (1 + h + h ^ 2 + h ^ 3))).
      { apply Rle_trans with (sumf 4 (fun j => h ^ S j * M)).
        - apply sumf_le. intros j Hj. apply Rmult_le_compat_l; [apply pow_le; lra|]. apply HM; [lia|lra|exact Hi].
        - right. cbn [sumf pow]. ring. }
      assert (Q4 : Rabs (fst (rk_loop n A b h 4 1 (rk_first n A b h g)) i - D 0%nat (INR (S k) * h) i) <= del).
      { eapply Rle_trans; [exact Q2|]. unfold del. replace (M * h ^ 5 / 70) with (h * (M * (h ^ 4 / 70))) by (cbn [pow]; field).
        clear - Q3. lra. }
      replace (_ - _) with ((fst (rk_loop n A b h 4 1 (rk_first n A b h f)) i - fst (rk_loop n A b h 4 1 (rk_first n A b h g)) i)
         + (fst (rk_loop n A b h 4 1 (rk_first n A b h g)) i - D 0%nat (INR (S k) * h) i)) by ring.
      eapply Rle_trans; [apply Rabs_triang|]. eapply Rle_trans; [apply Rplus_le_compat; [exact Q1|exact Q4]|].
      rewrite S_INR. replace (G * (INR k * del * G ^ k)) with (INR k * del * G ^ S k) by (cbn [pow]; ring).
      assert (del * 1 <= del * G ^ S k) by (apply Rmult_le_compat_l; assumption). lra. }
  intros i Hi. eapply Rle_trans; [apply X, Hi|]. right. unfold G, del. rewrite exp_nat.
  replace (INR m * (kappa * (h * L))) with (kappa * (L * (INR m * h))) by ring. ring.
Qed.
