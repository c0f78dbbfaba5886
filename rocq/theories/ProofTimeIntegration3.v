(** Theta method, exponential integrator, streaming. *)
From Verif Require Import Prelude BigSum ModelTimeIntegration SpecTimeIntegration ProofTimeIntegration.
Local Open Scope R_scope.

Lemma cauchy_schwarz n x y :
  sumf n (fun i => x i * y i) * sumf n (fun i => x i * y i)
  <= sumf n (fun i => x i * x i) * sumf n (fun i => y i * y i).
Proof.
  induction n as [|n IH]; cbn [sumf]; [lra|].
  assert (W : 0 <= sumf n (fun i => x i * x i)) by (apply sumf_nonneg; intros; nra).
  assert (E : 0 <= sumf n (fun i => y i * y i)) by (apply sumf_nonneg; intros; nra).
  set (a := sumf n (fun i => x i * y i)) in *. set (w := sumf n (fun i => x i * x i)) in *.
  set (e := sumf n (fun i => y i * y i)) in *. clearbody a w e. set (p := x n). set (q := y n). clearbody p q.
  assert (H : Rabs (2 * (a * p * q)) <= Rabs (w * (q * q) + (p * p) * e)).
  { apply Rsqr_le_abs_0. unfold Rsqr.
    assert (0 <= (p * q) * (p * q) * (w * e - a * a)) by (apply Rmult_le_pos; [apply (Rle_0_sqr (p * q))|lra]).
    assert (Q := Rle_0_sqr (w * (q * q) - p * p * e)). unfold Rsqr in Q.
    apply Rminus_le. 
    replace (_ - _) with (- ((w * (q * q) - p * p * e) * (w * (q * q) - p * p * e) + 4 * ((p * q) * (p * q) * (w * e - a * a)))) by ring.
    lra. }
  assert (0 <= w * (q * q)) by (apply Rmult_le_pos; [auto|apply (Rle_0_sqr q)]).
  assert (0 <= (p * p) * e) by (apply Rmult_le_pos; [apply (Rle_0_sqr p)|auto]).
  rewrite (Rabs_pos_eq (_ + _)) in H by lra.
  assert (2 * (a * p * q) <= w * (q * q) + (p * p) * e) by (eapply Rle_trans; [apply Rle_abs|exact H]).
  nra.
Qed.

Lemma norm2_cs n x y : Rabs (sumf n (fun i => x i * y i)) <= norm2 n x * norm2 n y.
Proof.
  unfold norm2. rewrite <- sqrt_mult by (apply sumf_nonneg; intros; nra).
  rewrite <- sqrt_Rsqr_abs. apply sqrt_le_1_alt. apply cauchy_schwarz.
Qed.

Lemma norm2_nonneg n x : 0 <= norm2 n x.
Proof. apply sqrt_pos. Qed.

Lemma norm2_zero n x : norm2 n x <= 0 -> forall i, (i < n)%nat -> x i = 0.
Proof.
  intros H i Hi. assert (E : norm2 n x = 0) by (assert (0 <= norm2 n x) by apply sqrt_pos; lra).
  unfold norm2 in E. apply sqrt_eq_0 in E; [|apply sumf_nonneg; intros; nra].
  assert (Q := sumf_nonneg_zero n (fun i => x i * x i) ltac:(intros; nra) E i Hi). cbn in Q. nra.
Qed.

Lemma norm2_ext n x y : (forall i, (i < n)%nat -> x i = y i) -> norm2 n x = norm2 n y.
Proof. intros H. unfold norm2. f_equal. apply sumf_ext. intros i Hi. now rewrite H. Qed.

Section Theta.
  Variables (solve : mat -> vec -> vec -> outcome vec) (theta : R) (n : nat).

  (** What is left of a step: the time step and the call of the solver. *)
  Lemma theta_inv stored f A b t dt r :
    theta_step solve theta n stored f A b t dt = Ok r ->
    taken stored dt (sp_dt r) /\ sp_t r = t + sp_dt r /\
    exists M v, solve M f v = Ok (sp_f r) /\
      (forall x i, (i < n)%nat -> sumf n (fun j => M i j * x j) = x i - theta * (sp_dt r) * sumf n (fun j => A i j * x j)) /\
      (forall i, (i < n)%nat -> v i = theta_known n A b theta (sp_dt r) f i).
  Proof.
    unfold theta_step. destruct (resolve_dt stored dt) as [[h d]| |] eqn:E; try discriminate.
    apply resolve_ok in E. destruct E as [-> T].
    cbn [obind].
    match goal with |- obind (solve ?M f ?v) _ = _ -> _ => set (M0 := M) end.
    match goal with |- obind (solve M0 f ?v) _ = _ -> _ => set (v0 := v) end.
    destruct (solve M0 f v0) as [x| |] eqn:S; try discriminate.
    cbn [obind]. injection 1 as <-. cbn [sp_dt sp_f sp_t].
    split; [exact T|]. split; [reflexivity|]. exists M0, v0. split; [exact S|].
    assert (HM : forall x i, (i < n)%nat -> sumf n (fun j => M0 i j * x j) = x i - theta * h * sumf n (fun j => A i j * x j)).
    { intros y i Hi. unfold M0.
      rewrite (sumf_ext n _ (fun j => delta i j * y j - theta * h * (A i j * y j))) by (intros; ring).
      rewrite sumf_minus, sumf_scal, sumf_delta by auto. reflexivity. }
    split; [exact HM|]. intros i Hi. unfold v0, vadd, vmult, vscale.
    rewrite HM by auto. unfold theta_known.
    rewrite (sumf_ext n (fun j => A i j * h * f j) (fun j => h * (A i j * f j))) by (intros; ring).
    rewrite sumf_scal. ring.
  Qed.

  Lemma theta_tolerance tol stored f A b t dt r :
    solves n tol solve -> theta_step solve theta n stored f A b t dt = Ok r ->
    norm2 n (theta_defect n A b theta (sp_dt r) f (sp_f r)) <= tol * norm2 n (theta_known n A b theta (sp_dt r) f).
  Proof.
    intros S H. apply theta_inv in H. destruct H as (_ & _ & M & v & E & HM & Hv).
    apply S in E. rewrite (norm2_ext n v (theta_known n A b theta (sp_dt r) f)) in E by auto.
    erewrite norm2_ext; [exact E|]. intros i Hi. cbn beta. rewrite HM, Hv by auto.
    unfold theta_defect, theta_known. ring.
  Qed.

  Lemma theta_conserved_tol tol w stored f A b t dt r :
    solves n tol solve -> conserved n A b w -> theta_step solve theta n stored f A b t dt = Ok r ->
    Rabs (sumf n (fun i => w i * sp_f r i) - sumf n (fun i => w i * f i))
    <= norm2 n w * (tol * norm2 n (theta_known n A b theta (sp_dt r) f)).
  Proof.
    intros S C H. assert (T := theta_tolerance tol _ _ _ _ _ _ _ S H).
    assert (E : sumf n (fun i => w i * sp_f r i) - sumf n (fun i => w i * f i)
                = sumf n (fun i => w i * theta_defect n A b theta (sp_dt r) f (sp_f r) i)).
    { rewrite (sumf_ext n (fun i => w i * theta_defect n A b theta (sp_dt r) f (sp_f r) i)
        (fun i => (w i * sp_f r i - w i * f i)
                  - (sp_dt r * (1 - theta) * (w i * rhs n A b f i) + sp_dt r * theta * (w i * rhs n A b (sp_f r) i))))
        by (intros; unfold theta_defect, rhs; ring).
      rewrite !sumf_minus, sumf_plus, !sumf_scal, !C. ring. }
    rewrite E. eapply Rle_trans; [apply norm2_cs|].
    apply Rmult_le_compat_l; auto using norm2_nonneg.
  Qed.

  Lemma theta_exact stored f A b t dt r :
    solves n 0 solve -> theta_step solve theta n stored f A b t dt = Ok r ->
    forall i, (i < n)%nat -> theta_defect n A b theta (sp_dt r) f (sp_f r) i = 0.
  Proof.
    intros S H. assert (T := theta_tolerance 0 _ _ _ _ _ _ _ S H). rewrite Rmult_0_l in T.
    apply norm2_zero; auto.
  Qed.

  Lemma theta_conserved w stored f A b t dt r :
    solves n 0 solve -> conserved n A b w -> theta_step solve theta n stored f A b t dt = Ok r ->
    sumf n (fun i => w i * sp_f r i) = sumf n (fun i => w i * f i).
  Proof.
    intros S C H. assert (T := theta_conserved_tol 0 w _ _ _ _ _ _ _ S C H).
    rewrite Rmult_0_l, Rmult_0_r in T. revert T. unfold Rabs. destruct Rcase_abs; lra.
  Qed.

  Lemma theta_steady stored f A b t dt r :
    keeps_solutions n solve -> steady n A b f -> theta_step solve theta n stored f A b t dt = Ok r ->
    forall i, (i < n)%nat -> sp_f r i = f i.
  Proof.
    intros S C H. apply theta_inv in H. destruct H as (_ & _ & M & v & E & HM & Hv).
    apply (S _ _ _ _ E). intros i Hi. rewrite HM, Hv by auto. unfold theta_known.
    assert (Q := C i Hi). unfold rhs in Q.
    replace (sumf n (fun j => A i j * f j)) with (- b i) by lra. ring.
  Qed.
End Theta.

(** *** Exponential integrator *)

Lemma fsum_none n f : (exists j, (j < n)%nat /\ f j = None) -> fsum n f = None.
Proof.
  induction n as [|n IH]; intros [j [Hj E]]; [lia|]. cbn [fsum].
  destruct (Nat.eq_dec j n) as [->|N].
  - rewrite E. destruct (fsum n f); reflexivity.
  - rewrite IH; [reflexivity|]. exists j. split; [lia|auto].
Qed.

Lemma fsum_some n f g : (forall i, (i < n)%nat -> f i = Some (g i)) -> fsum n f = Some (sumf n g).
Proof.
  induction n as [|n IH]; intros H; [reflexivity|]. cbn [fsum sumf].
  rewrite IH, (H n) by (intros; auto). reflexivity.
Qed.

Lemma fsum_inv n f x : fsum n f = Some x -> forall i, (i < n)%nat -> exists y, f i = Some y.
Proof.
  intros H i Hi. destruct (f i) as [y|] eqn:E; [eauto|].
  rewrite fsum_none in H; [discriminate|eauto].
Qed.

(** Column 0 is written only once. *)
Lemma col0_step n A j s : fst (arnoldi_step n A j s) 0%nat = fst s 0%nat.
Proof.
  destruct s as [V H]. unfold arnoldi_step.
  destruct (iterate_upto (S j) (arnoldi_inner n V j) (fvmult n A (V j), H)) as [w H'].
  cbn [fst]. destruct (fl_nonzero _); reflexivity.
Qed.

Lemma col0_iterate n A m s : fst (iterate_upto m (arnoldi_step n A) s) 0%nat = fst s 0%nat.
Proof. induction m as [|m IH]; [reflexivity|]. cbn [iterate_upto]. rewrite col0_step. exact IH. Qed.

Opaque arnoldiSize.

Lemma exp_inv pade inverse n stored f A b t dt r :
  exp_step pade inverse n stored f A b t dt = Ok r ->
  sp_f r = exp_core pade inverse n (sp_dt r) f A b /\ taken stored dt (sp_dt r) /\ sp_t r = t + sp_dt r.
Proof.
  unfold exp_step. destruct (resolve_dt stored dt) as [[h d]| |] eqn:E; [|discriminate|discriminate].
  apply resolve_ok in E. destruct E as [-> T]. cbn [obind]. injection 1 as <-. cbn [sp_f sp_dt sp_t]. auto.
Qed.

Lemma exp_steady_core pade inverse n h f A b :
  steady n A b f -> forall i, (i < n)%nat -> exp_core pade inverse n h (fun i => Some (f i)) A b i = None.
Proof.
  intros S i Hi. unfold exp_core.
  set (w := fun i => fadd (fvmult n A (fun i => Some (f i)) i) (Some (b i))).
  assert (W : forall i, (i < n)%nat -> w i = Some 0).
  { intros k Hk. unfold w, fvmult. rewrite (fsum_some n _ (fun j => A k j * f j)) by reflexivity.
    cbn. f_equal. exact (S k Hk). }
  assert (B : fnorm n w = Some 0).
  { unfold fnorm, fdot. rewrite (fsum_some n _ (fun _ => 0)).
    - cbn. rewrite sumf_0, sqrt_0. reflexivity.
    - intros k Hk. rewrite W by auto. cbn. f_equal. ring. }
  match goal with |- context [iterate_upto arnoldiSize ?g (?V, ?H)] => set (V0 := V); set (H0 := H) end.
  assert (C := col0_iterate n A arnoldiSize (V0, H0)).
  destruct (iterate_upto arnoldiSize (arnoldi_step n A) (V0, H0)) as [V H]. cbn [fst] in C.
  destruct (phiFunction pade inverse h H) as [p1 p2].
  assert (Z : V 0%nat i = None).
  { rewrite C. change (fdiv (w i) (fnorm n w) = None). rewrite B, W by auto. cbn.
    destruct (Req_EM_T 0 0); [reflexivity|contradiction]. }
  rewrite fsum_none; [reflexivity|]. exists 0%nat. split; [lia|]. rewrite Z. reflexivity.
Qed.

Lemma exp_steady pade inverse n stored f A b t dt r :
  steady n A b f -> exp_step pade inverse n stored (fun i => Some (f i)) A b t dt = Ok r ->
  forall i, (i < n)%nat -> sp_f r i = None.
Proof. intros S H. apply exp_inv in H. destruct H as [-> _]. apply exp_steady_core; auto. Qed.

Lemma add_mul_inv a x y z : fadd a (fmul x y) = Some z -> exists v, x = Some v.
Proof. destruct a, x; cbn; eauto; discriminate. Qed.

Lemma mul_inv x y z : fmul x y = Some z -> exists v, y = Some v.
Proof. destruct x, y; cbn; eauto; discriminate. Qed.

Section ExpConserved.
  Variables (n : nat) (A : mat) (b w : vec).
  Hypothesis C : conserved n A b w.

  Definition good (v : fvec) : Prop :=
    exists x, (forall i, (i < n)%nat -> v i = Some (x i)) /\ sumf n (fun i => w i * x i) = 0.

  Lemma A_conserved x : sumf n (fun i => w i * sumf n (fun j => A i j * x j)) = 0.
  Proof.
    assert (C1 := C x). assert (C0 := C (fun _ => 0)).
    rewrite (sumf_ext n (fun i => w i * sumf n (fun j => A i j * x j))
      (fun i => w i * rhs n A b x i - w i * rhs n A b (fun _ => 0) i)).
    - rewrite sumf_minus, C1, C0. ring.
    - intros i _. unfold rhs. rewrite (sumf_zero n (fun j => A i j * 0)) by (intros; ring). ring.
  Qed.

  Lemma good_mult v : good v -> good (fvmult n A v).
  Proof.
    intros [x [Hx _]]. exists (fun i => sumf n (fun j => A i j * x j)). split; [|apply A_conserved].
    intros i Hi. unfold fvmult. apply fsum_some. intros j Hj. rewrite Hx by auto. reflexivity.
  Qed.

  Lemma good_inner V j m : (forall k, good (V k)) -> forall s, good (fst s) ->
    good (fst (iterate_upto m (arnoldi_inner n V j) s)).
  Proof.
    intros HV s Hs. induction m as [|m IH]; [exact Hs|]. cbn [iterate_upto].
    destruct (iterate_upto m (arnoldi_inner n V j) s) as [u H]. cbn [fst] in *. cbn.
    destruct IH as [x [Hx Zx]], (HV m) as [y [Hy Zy]].
    set (d := sumf n (fun i => x i * y i)).
    assert (D : fdot n u (V m) = Some d).
    { apply fsum_some. intros i Hi. rewrite Hx, Hy by auto. reflexivity. }
    exists (fun i => x i - y i * d). split.
    - intros i Hi. rewrite D, Hx, Hy by auto. reflexivity.
    - rewrite (sumf_ext n _ (fun i => w i * x i - d * (w i * y i))) by (intros; ring).
      rewrite sumf_minus, sumf_scal, Zx, Zy. ring.
  Qed.

  Lemma good_step j s : (forall k, good (fst s k)) -> forall k, good (fst (arnoldi_step n A j s) k).
  Proof.
    destruct s as [V H]. intros HV k. cbn [fst] in HV. unfold arnoldi_step.
    assert (G := good_inner V j (S j) HV (fvmult n A (V j), H) (good_mult _ (HV j))).
    destruct (iterate_upto (S j) (arnoldi_inner n V j) (fvmult n A (V j), H)) as [u H']. cbn [fst] in *.
    destruct (fl_nonzero (fnorm n u)) eqn:N; [|apply HV].
    unfold set_col. destruct (Nat.eqb k (S j)); [|apply HV].
    destruct G as [x [Hx Zx]].
    assert (D : fnorm n u = Some (sqrt (sumf n (fun i => x i * x i)))).
    { unfold fnorm, fdot. rewrite (fsum_some n _ (fun i => x i * x i)).
      - reflexivity.
      - intros i Hi. rewrite Hx by auto. reflexivity. }
    rewrite D in *. cbn in N. destruct (Req_EM_T _ 0) as [E|E] in N; [discriminate|].
    eexists. split.
    - intros i Hi. rewrite Hx by auto. cbn. destruct (Req_EM_T _ 0); [contradiction|reflexivity].
    - unfold Rdiv. rewrite (sumf_ext n _ (fun i => (w i * x i) * / sqrt (sumf n (fun i => x i * x i)))) by (intros; ring).
      rewrite sumf_scal_r, Zx. ring.
  Qed.

  Lemma good_iterate m s : (forall k, good (fst s k)) ->
    forall k, good (fst (iterate_upto m (arnoldi_step n A) s) k).
  Proof. induction m as [|m IH]; intros H; [exact H|]. cbn [iterate_upto]. apply good_step. auto. Qed.

  Lemma exp_conserved_core pade inverse h f g :
    (forall i, (i < n)%nat -> exp_core pade inverse n h (fun i => Some (f i)) A b i = Some (g i)) ->
    sumf n (fun i => w i * g i) = sumf n (fun i => w i * f i).
  Proof.
    set (beta := sqrt (sumf n (fun i => rhs n A b f i * rhs n A b f i))).
    destruct (Req_EM_T beta 0) as [Z|NZ].
    { (* at rest nothing finite is returned *)
      intros G.
      assert (S : steady n A b f).
      { intros i Hi. apply (norm2_zero n (rhs n A b f)); auto. unfold norm2. fold beta. lra. }
      apply sumf_ext. intros i Hi. exfalso.
      assert (Q := exp_steady_core pade inverse n h f A b S i Hi). rewrite G in Q by auto. discriminate. }
    unfold exp_core.
    set (u := fun i => fadd (fvmult n A (fun i => Some (f i)) i) (Some (b i))).
    assert (U : forall i, u i = Some (rhs n A b f i)).
    { intros i. unfold u, fvmult. rewrite (fsum_some n _ (fun j => A i j * f j)) by reflexivity. reflexivity. }
    assert (B : fnorm n u = Some beta).
    { unfold fnorm, fdot. rewrite (fsum_some n _ (fun i => rhs n A b f i * rhs n A b f i)).
      - reflexivity.
      - intros i Hi. rewrite U. reflexivity. }
    match goal with |- context [iterate_upto arnoldiSize ?g (?V, ?H)] => set (V0 := V); set (H0 := H) end.
    assert (G0 : forall k, good (fst (V0, H0) k)).
    { intros k. cbn [fst]. unfold V0, set_col. destruct (Nat.eqb k 0).
      - rewrite B. exists (fun i => rhs n A b f i / beta). split.
        + intros i Hi. change (fdiv (u i) (Some beta) = Some (rhs n A b f i / beta)). rewrite U. cbn. destruct (Req_EM_T beta 0); [contradiction|reflexivity].
        + unfold Rdiv. rewrite (sumf_ext n _ (fun i => (w i * rhs n A b f i) * / beta)) by (intros; ring).
          rewrite sumf_scal_r, C. ring.
      - exists (fun _ => 0). split; [reflexivity|]. apply sumf_zero. intros; ring. }
    assert (G1 := good_iterate arnoldiSize (V0, H0) G0). clear G0.
    destruct (iterate_upto arnoldiSize (arnoldi_step n A) (V0, H0)) as [V H]. cbn [fst] in G1.
    destruct (phiFunction pade inverse h H) as [p1 p2].
    match goal with |- context [fun j => fmul (V j _) (@?c j)] => set (col := c) end.
    rewrite B. intros G.
    destruct (Nat.eq_dec n 0) as [N0|N0]; [rewrite N0; reflexivity|].
    assert (K : forall j, (j < S arnoldiSize)%nat -> exists c, col j = Some c).
    { intros j Hj. assert (G' := G 0%nat ltac:(lia)).
      apply add_mul_inv in G'. destruct G' as [x E].
      destruct (fsum_inv _ _ _ E j Hj) as [y Hy].
      apply mul_inv in Hy. exact Hy. }
    assert (X : exists x, (forall i, (i < n)%nat ->
                  fsum (S arnoldiSize) (fun j => fmul (V j i) (col j)) = Some (x i)) /\
                  sumf n (fun i => w i * x i) = 0).
    { clear G. revert K. generalize (S arnoldiSize). intros m K. induction m as [|m IH].
      - exists (fun _ => 0). split; [reflexivity|]. apply sumf_zero. intros; ring.
      - destruct IH as [x [Hx Zx]]; [intros j Hj; apply K; lia|].
        destruct (K m ltac:(lia)) as [c Hc], (G1 m) as [v [Hv Zv]].
        exists (fun i => x i + v i * c). split.
        + intros i Hi. cbn [fsum]. rewrite Hx, Hv, Hc by auto. reflexivity.
        + rewrite (sumf_ext n _ (fun i => w i * x i + c * (w i * v i))) by (intros; ring).
          rewrite sumf_plus, sumf_scal, Zx, Zv. ring. }
    destruct X as [x [Hx Zx]].
    rewrite (sumf_ext n (fun i => w i * g i) (fun i => w i * f i + (h * beta) * (w i * x i))).
    - rewrite sumf_plus, sumf_scal, Zx. ring.
    - intros i Hi. assert (Gi := G i Hi). rewrite Hx in Gi by auto. cbn in Gi. injection Gi as <-. ring.
  Qed.

  Lemma exp_conserved pade inverse stored f t dt r g :
    exp_step pade inverse n stored (fun i => Some (f i)) A b t dt = Ok r ->
    (forall i, (i < n)%nat -> sp_f r i = Some (g i)) ->
    sumf n (fun i => w i * g i) = sumf n (fun i => w i * f i).
  Proof.
    intros E. apply exp_inv in E. destruct E as [-> _]. apply exp_conserved_core.
  Qed.
End ExpConserved.
