(** Streaming with the time integrators; comparison with a fifth order method. *)
From Verif Require Import Prelude BigSum ModelTimeIntegration SpecTimeIntegration ProofTimeIntegration
  ProofTimeIntegration2 ProofTimeIntegration3.
Local Open Scope R_scope.

Lemma rk5_inv n stored f A b t dt r :
  rk5_step n stored f A b t dt = Ok r ->
  taken stored dt (sp_dt r) /\ sp_t r = t + sp_dt r /\
  sp_f r = fst (rk_loop n A b (sp_dt r) 4 1 (rk_first n A b (sp_dt r) f)).
Proof.
  unfold rk5_step. destruct (resolve_dt stored dt) as [[h d]| |] eqn:E; [|discriminate|discriminate].
  apply resolve_ok in E. destruct E as [-> T]. cbn [obind]. injection 1 as <-. cbn [sp_f sp_dt sp_t]. auto.
Qed.

Lemma rk5_runs n stored f A b t dt :
  (dt = 0 \/ dt = stored \/ 0 < dt) <-> exists r, rk5_step n stored f A b t dt = Ok r.
Proof.
  rewrite resolve_runs. unfold rk5_step. split.
  - intros [h ->]. cbn [obind]. eauto.
  - intros [r H]. destruct (resolve_dt stored dt) as [[h d]| |] eqn:E; try discriminate.
    apply resolve_ok in E as E'. destruct E' as [-> _]. eauto.
Qed.

Lemma rk5_steady n stored f A b t dt r : steady n A b f -> rk5_step n stored f A b t dt = Ok r ->
  forall i, (i < n)%nat -> sp_f r i = f i.
Proof. intros S H. apply rk5_inv in H. destruct H as (_ & _ & ->). apply rk_steady; auto. Qed.

Lemma rk5_conserved n w stored f A b t dt r : conserved n A b w -> rk5_step n stored f A b t dt = Ok r ->
  sumf n (fun i => w i * sp_f r i) = sumf n (fun i => w i * f i).
Proof. intros S H. apply rk5_inv in H. destruct H as (_ & _ & ->). apply rk_conserved; auto. Qed.

Lemma rk5_taylor : exists c : nat -> R,
  c 0%nat = 1 /\ (forall k, (k <= 4)%nat -> Rabs (c k - / INR (fact k)) <= / 100000000000000000000) /\
  Rabs (c 5%nat - 1 / 200) <= / 1000000000000 /\
  forall n stored f A b t dt r, rk5_step n stored f A b t dt = Ok r -> forall i, (i < n)%nat ->
    sp_f r i = sumf 6 (fun k => c k * sp_dt r ^ k * derivative n A b f k i).
Proof.
  exists rk_coef. destruct rk_coef_ok as (C0 & C & C5). split; [exact C0|]. split; [exact C|]. split; [exact C5|].
  intros n stored f A b t dt r H i Hi. apply rk5_inv in H. destruct H as (_ & _ & ->). apply rk_taylor; auto.
Qed.

Lemma rk5_local_error n stored f A b t dt r D M i :
  rk5_step n stored f A b t dt = Ok r -> solution n A b D ->
  (forall i, (i < n)%nat -> D 0%nat 0 i = f i) -> (i < n)%nat -> 0 <= sp_dt r ->
  (forall s, 0 <= s <= sp_dt r -> Rabs (D 5%nat s i) <= M) ->
  Rabs (sp_f r i - D 0%nat (sp_dt r) i)
  <= M * sp_dt r ^ 5 / 70 + / 100000000000000000000 * sumf 4 (fun k => sp_dt r ^ S k * Rabs (D (S k) 0 i)).
Proof. intros H. apply rk5_inv in H. destruct H as (_ & _ & ->). apply rk_local_error. Qed.

(** *** Streaming *)

(** What streaming needs to know about a time integrator's step. *)
Definition step_ok (n : nat) (A : mat) (b w : vec)
    (step : R -> vec -> mat -> vec -> R -> R -> outcome (stepped vec)) : Prop :=
  forall h f r, step h f A b 0 h = Ok r ->
    sp_dt r = h /\ sp_t r = h /\ sumf n (fun i => w i * sp_f r i) = sumf n (fun i => w i * f i).

Definition same_totals (n : nat) (w : vec) (s s' : sedg) : Prop :=
  sumf n (fun i => w i * sg_f s' i) = sumf n (fun i => w i * sg_f s i) /\
  sumf n (fun i => w i * sg_formerF s' i) = sumf n (fun i => w i * sg_formerF s i) /\
  sumf n (fun i => w i * sg_formerFEq s' i) = sumf n (fun i => w i * sg_formerFEq s i).

Lemma stream_inv n A b w step former s s' :
  step_ok n A b w step -> sedg_stream step former A b s = Ok s' ->
  sg_dt s' = sg_dt s /\ sg_time s' = sg_time s + sg_dt s /\ same_totals n w s s'.
Proof.
  intros K. unfold sedg_stream.
  destruct (step (sg_dt s) (sg_f s) A b 0 (sg_dt s)) as [r| |] eqn:E; [|discriminate|discriminate].
  apply K in E. destruct E as (E1 & E2 & E3). cbn [obind]. rewrite E1, E2.
  destruct former.
  - destruct (step (sg_dt s) (sg_formerF s) A b 0 (sg_dt s)) as [r2| |] eqn:F; [|discriminate|discriminate].
    apply K in F. destruct F as (F1 & F2 & F3). cbn [obind]. rewrite F1.
    destruct (step (sg_dt s) (sg_formerFEq s) A b 0 (sg_dt s)) as [r3| |] eqn:G; [|discriminate|discriminate].
    apply K in G. destruct G as (G1 & G2 & G3). cbn [obind fst snd].
    unfold setTimeStepSize. destruct (Rlt_dec 0 (sg_dt s)); [|discriminate]. cbn [obind].
    injection 1 as <-. unfold same_totals. cbn. auto.
  - cbn [obind fst snd].
    unfold setTimeStepSize. destruct (Rlt_dec 0 (sg_dt s)); [|discriminate]. cbn [obind].
    injection 1 as <-. unfold same_totals. cbn. auto.
Qed.

Lemma rk5_step_ok n A b w : conserved n A b w -> step_ok n A b w (rk5_step n).
Proof.
  intros C h f r H. split; [|split].
  - apply rk5_inv in H. destruct H as ([[-> ->]|[_ ->]] & _ & _); reflexivity.
  - apply rk5_inv in H. destruct H as ([[E ->]|[_ ->]] & -> & _); ring.
  - apply (rk5_conserved _ _ _ _ _ _ _ _ _ C H).
Qed.

Lemma theta_step_ok solve theta n A b w : solves n 0 solve -> conserved n A b w ->
  step_ok n A b w (theta_step solve theta n).
Proof.
  intros S C h f r H. split; [|split].
  - apply theta_inv in H. destruct H as ([[-> ->]|[_ ->]] & _ & _); reflexivity.
  - apply theta_inv in H. destruct H as ([[E ->]|[_ ->]] & -> & _); ring.
  - apply (theta_conserved _ _ _ _ _ _ _ _ _ _ _ S C H).
Qed.

Lemma rk5_stream_runs n A b former s : 0 < sg_dt s ->
  exists s', sedg_stream (rk5_step n) former A b s = Ok s'.
Proof.
  intros P. unfold sedg_stream.
  assert (R : forall f, exists r, rk5_step n (sg_dt s) f A b 0 (sg_dt s) = Ok r /\ sp_dt r = sg_dt s /\ sp_t r = sg_dt s).
  { intros f. destruct (proj1 (rk5_runs n (sg_dt s) f A b 0 (sg_dt s)) ltac:(auto)) as [r E].
    exists r. split; [exact E|]. apply rk5_inv in E. destruct E as ([[? ->]|[_ ->]] & -> & _); split; ring. }
  destruct (R (sg_f s)) as (r & -> & D & T). cbn [obind]. rewrite D, T.
  destruct former.
  - destruct (R (sg_formerF s)) as (r2 & -> & D2 & _). cbn [obind]. rewrite D2.
    destruct (R (sg_formerFEq s)) as (r3 & -> & _). cbn [obind].
    unfold setTimeStepSize. destruct (Rlt_dec 0 (sg_dt s)); [|contradiction]. cbn [obind]. eauto.
  - cbn [obind]. unfold setTimeStepSize. destruct (Rlt_dec 0 (sg_dt s)); [|contradiction]. cbn [obind]. eauto.
Qed.

Lemma stream_times_inv n A b w step former m s s' :
  step_ok n A b w step -> stream_times step former A b m s = Ok s' ->
  sg_dt s' = sg_dt s /\ sg_time s' = sg_time s + INR m * sg_dt s /\ same_totals n w s s'.
Proof.
  intros K. revert s'. induction m as [|m IH]; intros s' H.
  - cbn in H. injection H as <-. unfold same_totals. repeat split. cbn. ring.
  - cbn [stream_times] in H.
    destruct (stream_times step former A b m s) as [s1| |]; try discriminate.
    destruct (IH s1 eq_refl) as (D & T & S1). cbn [obind] in H.
    apply (stream_inv n A b w) in H; [|exact K]. destruct H as (D' & T' & S2).
    split; [congruence|]. split; [rewrite T', T, D, S_INR; ring|].
    unfold same_totals in *. destruct S1 as (? & ? & ?), S2 as (? & ? & ?). repeat split; congruence.
Qed.

Lemma rk5_stream_times_runs n A b former m s : 0 < sg_dt s ->
  exists s', stream_times (rk5_step n) former A b m s = Ok s'.
Proof.
  intros P. induction m as [|m [s1 E]]; [cbn; eauto|].
  cbn [stream_times]. rewrite E. cbn [obind]. apply rk5_stream_runs.
  assert (K := rk5_step_ok n A b (fun _ => 0)).
  assert (Z : conserved n A b (fun _ => 0)) by (intros x; apply sumf_zero; intros; ring).
  apply (stream_times_inv n A b (fun _ => 0)) in E; [|apply K; exact Z]. destruct E as (-> & _). exact P.
Qed.

(** *** Not a fifth order method *)

Definition grow : mat := fun _ _ => 1.
Definition one_vec : vec := fun _ => 1.
Definition zero_vec : vec := fun _ => 0.

Lemma grow_derivative k : derivative 1 grow zero_vec one_vec k 0%nat = 1.
Proof.
  induction k as [|[|k] IH]; [reflexivity|cbn; unfold rhs, grow, zero_vec, one_vec; cbn; ring|].
  change (0 + 1 * derivative 1 grow zero_vec one_vec (S k) 0%nat = 1). rewrite IH. ring.
Qed.

Lemma not_fifth_order h : 1 / 10 <= h <= 1 -> exists r,
  rk5_step 1 h one_vec grow zero_vec 0 0 = Ok r /\
  h ^ 5 / 400 <= Rabs (sp_f r 0%nat - sumf 6 (fun k => / INR (fact k) * h ^ k * derivative 1 grow zero_vec one_vec k 0%nat)).
Proof.
  intros Hh. destruct (proj1 (rk5_runs 1 h one_vec grow zero_vec 0 0) ltac:(auto)) as [r E].
  exists r. split; [exact E|]. apply rk5_inv in E. destruct E as (T & _ & ->).
  assert (D : sp_dt r = h) by (destruct T as [[_ ->]|[N _]]; [reflexivity|lra]). rewrite D.
  rewrite rk_taylor by lia. cbn [sumf]. rewrite !grow_derivative.
  destruct rk_coef_ok as (C0 & C & C5). rewrite C0.
  assert (C1 := C 1%nat ltac:(lia)). assert (C2 := C 2%nat ltac:(lia)).
  assert (C3 := C 3%nat ltac:(lia)). assert (C4 := C 4%nat ltac:(lia)). clear C.
  apply abs_both in C1, C2, C3, C4, C5.
  set (c1 := rk_coef 1) in *; set (c2 := rk_coef 2) in *; set (c3 := rk_coef 3) in *;
  set (c4 := rk_coef 4) in *; set (c5 := rk_coef 5) in *. clearbody c1 c2 c3 c4 c5.
  assert (P : forall m, 0 <= h ^ m <= 1).
  { intros m. split; [apply pow_le; lra|]. rewrite <- (pow1 m). apply pow_incr. lra. }
  assert (L : (1 / 10) ^ 5 <= h ^ 5) by (apply pow_incr; lra).
  assert (B : forall c m, - / 100000000000000000000 <= c <= / 100000000000000000000 ->
     - / 100000000000000000000 <= c * h ^ m <= / 100000000000000000000).
  { intros c m Hc. assert (Pm := P m). set (e := / 100000000000000000000) in *.
    assert (0 <= e) by lra. nra. }
  assert (B1 := B _ 1%nat C1). assert (B2 := B _ 2%nat C2). assert (B3 := B _ 3%nat C3). assert (B4 := B _ 4%nat C4).
  clear B. assert (P5 := P 5%nat).
  assert (INR (fact 5) = 120) as -> by (rewrite <- INR_120; reflexivity).
  assert (B5 : 1 / 310 * h ^ 5 <= (1 / 120 - c5) * h ^ 5) by (apply Rmult_le_compat_r; lra).
  rewrite Rabs_minus_sym. eapply Rle_trans; [|apply Rle_abs].
  change (INR (fact 0)) with 1. rewrite Rinv_1.
  generalize dependent (/ INR (fact 1)); intros i1 C1 B1. generalize dependent (/ INR (fact 2)); intros i2 C2 B2.
  generalize dependent (/ INR (fact 3)); intros i3 C3 B3. generalize dependent (/ INR (fact 4)); intros i4 C4 B4.
  replace (0 + 1 * h ^ 0 * 1 + i1 * h ^ 1 * 1 + i2 * h ^ 2 * 1 +
           i3 * h ^ 3 * 1 + i4 * h ^ 4 * 1 + / 120 * h ^ 5 * 1 -
           (0 + 1 * h ^ 0 * 1 + c1 * h ^ 1 * 1 + c2 * h ^ 2 * 1 + c3 * h ^ 3 * 1 + c4 * h ^ 4 * 1 + c5 * h ^ 5 * 1))
    with ((1 / 120 - c5) * h ^ 5 - ((c1 - i1) * h ^ 1 + (c2 - i2) * h ^ 2
           + (c3 - i3) * h ^ 3 + (c4 - i4) * h ^ 4)) by field.
  revert B1 B2 B3 B4 B5. generalize ((1 / 120 - c5) * h ^ 5).
  generalize ((c1 - i1) * h ^ 1). generalize ((c2 - i2) * h ^ 2).
  generalize ((c3 - i3) * h ^ 3). generalize ((c4 - i4) * h ^ 4).
  intros t4 t3 t2 t1 t5 B1 B2 B3 B4 B5. lra.
Qed.
