(** The KBC collisions: general facts about the relaxation. *)
From Coq Require Import QArith Qreals.
From Verif Require Import Prelude StencilData ModelStencils SpecStencils SpecCollision BigSum ProofStencils ProofEqMoments
  ModelConfigNames ModelEquilibria ModelCollision ModelOldCollision SpecOldCollision ProofOldCollision ProofOldNode ModelEntropic SpecEntropic.
Local Open Scope R_scope.

Lemma nonzero_spec n f : nonzero n f = true <-> forall i, (i < n)%nat -> f i <> 0.
Proof.
  induction n as [|n IH]; cbn [nonzero]; [split; [intros _ i Hi; lia|reflexivity]|].
  destruct (Req_EM_T (f n) 0) as [E|E].
  - split; [discriminate|]. intros H. exfalso. apply (H n); [lia|exact E].
  - rewrite IH. split; intros H i Hi; [destruct (Nat.eq_dec i n) as [->|]; [exact E|apply H; lia]|apply H; lia].
Qed.

Section Relax.
  Variables (Q : nat) (tau : R) (k : nat -> R) (shear : (nat -> R) -> nat -> R) (f feq : nat -> R).
  Let ds i := shear f i - shear feq i.
  Let dh i := f i - feq i - ds i.
  Let beta := kbc_beta tau.
  Let ss := entropic_sum Q feq ds dh.
  Let hh := entropic_sum Q feq dh dh.
  Let gamma := kbc_gamma beta ss hh.

  Lemma relax_form f' : kbc_relax Q tau k shear f feq = Ok f' ->
    (forall i, (i < Q)%nat -> feq i <> 0) /\ forall i, f' i = f i - beta * (2 * ds i + gamma * dh i).
  Proof.
    unfold kbc_relax. cbv zeta. destruct (nonzero Q feq) eqn:E; [|discriminate]. intros H. split; [apply nonzero_spec; exact E|].
    intros i. set (g := fun i => _) in H. assert (G : f' = g) by congruence. rewrite G. unfold g. clear H G g.
    assert (Ed : forall j, f j - k j - shear f j - (feq j - k j - shear feq j) = dh j) by (intros; unfold dh, ds; ring).
    rewrite !Ed. fold (ds i). do 4 f_equal. unfold gamma. f_equal; apply sumf_ext; intros j _; rewrite !Ed; reflexivity.
  Qed.
  Lemma relax_runs : (forall i, (i < Q)%nat -> feq i <> 0) -> exists f', kbc_relax Q tau k shear f feq = Ok f'.
  Proof. intros H. unfold kbc_relax. cbv zeta. apply nonzero_spec in H. rewrite H. eexists; reflexivity. Qed.

  (** a linear moment of the result *)
  Lemma relax_moment f' phi : kbc_relax Q tau k shear f feq = Ok f' ->
    sumf Q (fun i => f' i * phi i) =
    sumf Q (fun i => f i * phi i)
    - beta * (2 * sumf Q (fun i => ds i * phi i)
              + gamma * (sumf Q (fun i => f i * phi i) - sumf Q (fun i => feq i * phi i) - sumf Q (fun i => ds i * phi i))).
  Proof.
    intros H. destruct (relax_form _ H) as [_ E].
    rewrite (sumf_ext Q _ (fun i => f i * phi i - beta * (2 * (ds i * phi i) + gamma * (f i * phi i - feq i * phi i - ds i * phi i))))
      by (intros i _; rewrite E; unfold dh; ring).
    rewrite sumf_minus, sumf_scal, sumf_plus, !sumf_scal, !sumf_minus. reflexivity.
  Qed.

  (** result of BGK and of the optimal stabiliser *)
  Lemma relax_bgk f' i : kbc_relax Q tau k shear f feq = Ok f' -> bgk_state tau f feq i = f' i + beta * (gamma - 2) * dh i.
  Proof.
    intros H. destruct (relax_form _ H) as [_ E]. rewrite E. unfold bgk_state, beta, kbc_beta, dh, Rdiv.
    replace (/ 2) with (1 * /2) by ring. set (r := / (tau + _)). lra.
  Qed.
End Relax.

(** Minimum of a quadratic. *)
Lemma quad_min a b c x t : 0 <= a -> a * x + b = 0 -> a * (x * x) + 2 * b * x + c <= a * (t * t) + 2 * b * t + c.
Proof.
  intros Ha H. assert (b = - a * x) by lra. subst b.
  assert (0 <= a * ((t - x) * (t - x))) by (apply Rmult_le_pos; [exact Ha|apply Rle_0_sqr]). lra.
Qed.

Section Optimal.
  Variables (Q : nat) (tau : R) (k : nat -> R) (shear : (nat -> R) -> nat -> R) (f feq f' : nat -> R).
  Hypothesis Hpos : forall i, (i < Q)%nat -> 0 < feq i.
  Hypothesis Htau : tau + 1/2 <> 0.
  Hypothesis Hrun : kbc_relax Q tau k shear f feq = Ok f'.
  Let ds i := shear f i - shear feq i.
  Let dh i := f i - feq i - ds i.
  Let beta := kbc_beta tau.
  Let ss := entropic_sum Q feq ds dh.
  Let hh := entropic_sum Q feq dh dh.
  Let aa := entropic_sum Q feq ds ds.
  Let gamma := kbc_gamma beta ss hh.
  Let dist g := sumf Q (fun i => (g i - feq i) * (g i - feq i) / feq i).

  Lemma beta_neq : beta <> 0.
  Proof. unfold beta, kbc_beta, Rdiv. repeat apply Rmult_integral_contrapositive_currified; try lra; apply Rinv_neq_0_compat; lra. Qed.

  Lemma dist_mix x y : dist (fun i => feq i + (x * ds i + y * dh i)) = x * x * aa + 2 * x * y * ss + y * y * hh.
  Proof.
    unfold dist, aa, ss, hh, entropic_sum. rewrite <- !sumf_scal, <- !sumf_plus. apply sumf_ext. intros i Hi.
    field. apply Rgt_not_eq, Hpos. exact Hi.
  Qed.
  Lemma dist_ext g h : (forall i, (i < Q)%nat -> g i = h i) -> dist g = dist h.
  Proof. intros E. apply sumf_ext. intros i Hi. rewrite (E i Hi). reflexivity. Qed.
  Lemma hh_nonneg : 0 <= hh.
  Proof.
    apply sumf_nonneg. intros i Hi. unfold Rdiv. apply Rmult_le_pos; [apply Rle_0_sqr|]. apply Rlt_le, Rinv_0_lt_compat, Hpos. exact Hi.
  Qed.

  Lemma stabiliser_optimal t : 1 / 10^16 <= hh -> dist f' <= dist (fun i => f' i + t * dh i).
  Proof.
    intros Hh. destruct (relax_form _ _ _ _ _ _ _ Hrun) as [_ E]. fold ds in E.
    assert (F : forall i, f' i = f i - beta * (2 * ds i + gamma * dh i)) by (intros i; rewrite E; reflexivity). clear E.
    rewrite (dist_ext f' (fun i => feq i + ((1 - 2 * beta) * ds i + (1 - beta * gamma) * dh i))) by (intros i _; rewrite F; unfold dh; ring).
    rewrite (dist_ext (fun i => f' i + t * dh i) (fun i => feq i + ((1 - 2 * beta) * ds i + (1 - beta * gamma + t) * dh i)))
      by (intros i _; rewrite F; unfold dh; ring).
    rewrite !dist_mix. set (x := 1 - 2 * beta).
    assert (Hg : hh * (1 - beta * gamma) + x * ss = 0).
    { unfold gamma, kbc_gamma. assert (0 < 1 / 10^16) by lra. destruct (Rlt_dec hh (1 / 10 ^ 16)) as [L|_]; [lra|].
      unfold x. field. split; [lra|exact beta_neq]. }
    generalize (quad_min hh (x * ss) (x * x * aa) (1 - beta * gamma) (1 - beta * gamma + t) hh_nonneg Hg). lra.
  Qed.
  Lemma stabiliser_bgk i : hh < 1 / 10^16 -> f' i = bgk_state tau f feq i.
  Proof.
    intros L. assert (E : bgk_state tau f feq i = f' i + beta * (gamma - 2) * dh i) by (rewrite (relax_bgk _ _ _ _ _ _ _ i Hrun); reflexivity).
    assert (G : gamma = 2) by (unfold gamma, kbc_gamma; destruct (Rlt_dec hh (1 / 10 ^ 16)); [reflexivity|contradiction]).
    rewrite E, G. ring.
  Qed.
  Lemma bgk_dist : dist (bgk_state tau f feq) = (1 - 1 / (tau + 1/2)) * (1 - 1 / (tau + 1/2)) * dist f.
  Proof.
    unfold dist. rewrite <- sumf_scal. apply sumf_ext. intros i Hi. unfold bgk_state. field. split; [apply Rgt_not_eq, Hpos; exact Hi|lra].
  Qed.
  Lemma stabiliser_contracts : dist f' <= (1 - 1 / (tau + 1/2)) * (1 - 1 / (tau + 1/2)) * dist f.
  Proof.
    rewrite <- bgk_dist. destruct (Rlt_dec hh (1 / 10^16)) as [L|L].
    - right. apply dist_ext. intros i _. apply stabiliser_bgk. exact L.
    - rewrite (dist_ext (bgk_state tau f feq) (fun i => f' i + beta * (gamma - 2) * dh i))
        by (intros i _; rewrite (relax_bgk _ _ _ _ _ _ _ i Hrun); reflexivity).
      apply stabiliser_optimal. lra.
  Qed.
  Lemma stabiliser_direction : exists t0, (forall i, bgk_state tau f feq i = f' i + t0 * dh i) /\
    (t0 = 0 /\ sumf Q (fun i => dh i * dh i / feq i) < 1 / 10^16 \/ forall t, dist f' <= dist (fun i => f' i + t * dh i)).
  Proof.
    exists (beta * (gamma - 2)). split; [intros i; rewrite (relax_bgk _ _ _ _ _ _ _ i Hrun); reflexivity|].
    destruct (Rlt_dec hh (1 / 10^16)) as [L|L].
    - left. split; [|exact L]. unfold gamma, kbc_gamma. destruct (Rlt_dec hh _); [ring|contradiction].
    - right. intros t. apply stabiliser_optimal. lra.
  Qed.
End Optimal.
