(** The product-form equilibrium. *)
From Coq Require Import QArith Qreals.
From Verif Require Import Prelude StencilData ModelStencils SpecStencils SpecCollision BigSum ProofStencils ProofEqMoments
  ModelConfigNames ModelEquilibria ModelCollision ModelOldCollision SpecOldCollision ProofOldCollision ProofOldNode ModelEntropic SpecEntropic ProofKBC ProofKBC9.
Local Open Scope R_scope.

(** One component: S = sqrt (1 + 3 u^2), A = 2 - S, x = (2 u + S) / (1 - u). *)
Definition fS (u : R) : R := sqrt (1 + 3 * (u * u)).
Definition fA (u : R) : R := 2 - fS u.
Definition fx (u : R) : R := (2 * u + fS u) / (1 - u).

Lemma fS_sq u : fS u * fS u = 1 + 3 * (u * u).
Proof. apply sqrt_sqrt. generalize (Rle_0_sqr u). unfold Rsqr. lra. Qed.
Lemma fS_pos u : 0 < fS u.
Proof. apply sqrt_lt_R0. generalize (Rle_0_sqr u). unfold Rsqr. lra. Qed.
Lemma sqrt3_neq : sqrt 3 <> 0.
Proof. apply Rgt_not_eq, sqrt_lt_R0. lra. Qed.
Lemma sqrt3_sq : sqrt 3 * sqrt 3 = 3.
Proof. apply sqrt_sqrt. lra. Qed.
Lemma fS_code u : sqrt (1 + u * sqrt 3 * (u * sqrt 3)) = fS u.
Proof. unfold fS. f_equal. replace (u * sqrt 3 * (u * sqrt 3)) with (u * u * (sqrt 3 * sqrt 3)) by ring. rewrite sqrt3_sq. ring. Qed.
Lemma fx_code u : (2 * (u * sqrt 3) / sqrt 3 + sqrt (1 + u * sqrt 3 * (u * sqrt 3))) / (1 - u * sqrt 3 / sqrt 3) = fx u.
Proof.
  rewrite fS_code. unfold fx. replace (2 * (u * sqrt 3) / sqrt 3) with (2 * u) by (field; exact sqrt3_neq).
  replace (u * sqrt 3 / sqrt 3) with u by (field; exact sqrt3_neq). reflexivity.
Qed.

Lemma one_minus_sq u : u * u <> 1 -> 1 - u <> 0 /\ 1 + u <> 0.
Proof. intros H. split; intros E; apply H; [replace u with 1 by lra|replace u with (-1) by lra]; ring. Qed.

Lemma fx_inv u : u * u <> 1 -> fx u <> 0 /\ / fx u = (fS u - 2 * u) / (1 + u).
Proof.
  intros H. destruct (one_minus_sq u H) as [H1 H2]. assert (Hs := fS_sq u).
  assert (N : 2 * u + fS u <> 0).
  { intros E. apply H. assert (F : fS u = -2 * u) by lra. rewrite F in Hs. lra. }
  split; [unfold fx, Rdiv; apply Rmult_integral_contrapositive_currified; [exact N|apply Rinv_neq_0_compat; exact H1]|].
  unfold fx. apply (Rmult_eq_reg_r ((2 * u + fS u) * (1 + u))); [|apply Rmult_integral_contrapositive_currified; assumption].
  transitivity (1 - u * u); [field; split; assumption|]. field_simplify; [|assumption]. 
  replace (fS u ^ 2) with (fS u * fS u) by ring. rewrite Hs. ring.
Qed.
Lemma fA_x u : u * u <> 1 -> fA u * fx u = 3 - 2 * fA u + 3 * u.
Proof.
  intros H. destruct (one_minus_sq u H) as [H1 _]. unfold fA, fx.
  replace ((2 - fS u) * ((2 * u + fS u) / (1 - u))) with ((4 * u + 2 * fS u - 2 * u * fS u - fS u * fS u) / (1 - u)) by (field; exact H1).
  rewrite fS_sq. field. exact H1.
Qed.
Lemma fA_ix u : u * u <> 1 -> fA u / fx u = 3 - 2 * fA u - 3 * u.
Proof.
  intros H. destruct (one_minus_sq u H) as [_ H2]. unfold Rdiv. rewrite (proj2 (fx_inv u H)). unfold fA.
  replace ((2 - fS u) * ((fS u - 2 * u) / (1 + u))) with ((2 * fS u - 4 * u + 2 * u * fS u - fS u * fS u) / (1 + u)) by (field; exact H2).
  rewrite fS_sq. field. exact H2.
Qed.

Lemma fS_lt2 u : u * u < 1 -> fS u < 2.
Proof.
  intros H. apply Rnot_le_lt. intros L. assert (2 * 2 <= fS u * fS u) by (apply Rmult_le_compat; lra).
  rewrite fS_sq in H0. lra.
Qed.
Lemma fA_pos u : u * u < 1 -> 0 < fA u.
Proof. intros H. unfold fA. generalize (fS_lt2 u H). lra. Qed.
Lemma fx_pos u : u * u < 1 -> 0 < fx u.
Proof.
  intros H. assert (L : -1 < u < 1) by (split; [assert (0 < (1 - u) * (1 + u)) by lra; nra|nra]).
  unfold fx. apply Rdiv_lt_0_compat; [|lra]. assert (Hs := fS_sq u). assert (Hp := fS_pos u). nra.
Qed.
(** populations as products of polynomials in A and u *)
Definition pfac (u : R) (c : Z) : R :=
  match c with Z0 => 4 * fA u | Zpos _ => 3 - 2 * fA u + 3 * u | Zneg _ => 3 - 2 * fA u - 3 * u end.
Definition entropic_poly (rho ux uy : R) : nat -> R :=
  vec [ rho / 36 * (pfac ux 0 * pfac uy 0);
        rho / 36 * (pfac ux 1 * pfac uy 0); rho / 36 * (pfac ux 0 * pfac uy 1);
        rho / 36 * (pfac ux (-1) * pfac uy 0); rho / 36 * (pfac ux 0 * pfac uy (-1));
        rho / 36 * (pfac ux 1 * pfac uy 1); rho / 36 * (pfac ux (-1) * pfac uy 1);
        rho / 36 * (pfac ux (-1) * pfac uy (-1)); rho / 36 * (pfac ux 1 * pfac uy (-1)) ].
Lemma pfac_spec u : u * u <> 1 ->
  4 * fA u = pfac u 0 /\ fA u * fx u = pfac u 1 /\ fA u / fx u = pfac u (-1).
Proof. intros H. cbn [pfac]. repeat split; [apply fA_x|apply fA_ix]; exact H. Qed.

Lemma entropic_form rho ux uy i : ux * ux <> 1 -> uy * uy <> 1 -> entropic_D2Q9 rho ux uy i = entropic_poly rho ux uy i.
Proof.
  intros Hx Hy. unfold entropic_D2Q9, entropic_poly. cbv zeta. rewrite !fx_code, !fS_code. fold (fA ux) (fA uy).
  destruct (pfac_spec ux Hx) as (X0 & X1 & X2). destruct (pfac_spec uy Hy) as (Y0 & Y1 & Y2).
  assert (NX := proj1 (fx_inv ux Hx)). assert (NY := proj1 (fx_inv uy Hy)).
  rewrite <- X0, <- X1, <- X2, <- Y0, <- Y1, <- Y2.
  do 9 (destruct i as [|i]; [unfold vec; cbn [nth]; field; repeat split; assumption|]). destruct i; reflexivity.
Qed.
Lemma entropic_bad rho ux uy i : ux * ux = 1 \/ uy * uy = 1 -> entropic_D2Q9 rho ux uy i = 0.
Proof.
  assert (T : forall u, u * u = 1 -> 2 - sqrt (1 + u * sqrt 3 * (u * sqrt 3)) = 0).
  { intros u Hu. rewrite fS_code. unfold fS. rewrite Hu. replace (1 + 3 * 1) with (2 * 2) by ring. rewrite sqrt_square by lra. ring. }
  intros H. unfold entropic_D2Q9. cbv zeta.
  assert (P : rho * (2 - sqrt (1 + ux * sqrt 3 * (ux * sqrt 3))) * (2 - sqrt (1 + uy * sqrt 3 * (uy * sqrt 3))) = 0).
  { destruct H as [H|H]; rewrite (T _ H); ring. }
  rewrite P. unfold Rdiv. do 9 (destruct i as [|i]; [unfold vec; cbn [nth]; ring|]). destruct i; reflexivity.
Qed.
Lemma entropic_nonzero rho ux uy : nonzero 9 (entropic_D2Q9 rho ux uy) = true -> ux * ux <> 1 /\ uy * uy <> 1.
Proof.
  intros H. rewrite nonzero_spec in H.
  split; intros E; apply (H 0%nat); try lia; apply entropic_bad; tauto.
Qed.

Lemma pfac_pos u c : u * u < 1 -> 0 < pfac u c.
Proof.
  intros H. assert (N : u * u <> 1) by lra. destruct (pfac_spec u N) as (E0 & E1 & E2).
  assert (A := fA_pos u H). assert (X := fx_pos u H).
  destruct c as [|p|p].
  - rewrite <- E0. lra.
  - change (pfac u (Z.pos p)) with (pfac u 1). rewrite <- E1. apply Rmult_lt_0_compat; assumption.
  - change (pfac u (Z.neg p)) with (pfac u (-1)). rewrite <- E2. apply Rdiv_lt_0_compat; assumption.
Qed.
Lemma entropic_pos rho ux uy i : 0 < rho -> ux * ux < 1 -> uy * uy < 1 -> (i < 9)%nat -> 0 < entropic_D2Q9 rho ux uy i.
Proof.
  intros Hr Hx Hy Hi. rewrite entropic_form by lra. unfold entropic_poly.
  do 9 (destruct i as [|i]; [unfold vec; cbn [nth]; apply Rmult_lt_0_compat; [lra|apply Rmult_lt_0_compat; apply pfac_pos; assumption]|]). lia.
Qed.

Section EqMoments.
  Variables (s rho ux uy : R).
  Hypotheses (Hx : ux * ux <> 1) (Hy : uy * uy <> 1).
  Let st := D2Q9 s.
  Let feq := entropic_D2Q9 rho ux uy.
  Lemma entropic_mass : mass st feq = rho.
  Proof.
    unfold st, feq. rewrite (mass_ext _ _ (entropic_poly rho ux uy)) by (intros; apply entropic_form; assumption).
    unfold mass, entropic_poly. nine. cbn [pfac]. field.
  Qed.
  Lemma entropic_momentum a : (a < 2)%nat -> momentum st feq a = rho * (s * vec [ux; uy] a).
  Proof.
    intros Ha. unfold st, feq. rewrite (momentum_ext _ _ (entropic_poly rho ux uy)) by (intros; apply entropic_form; assumption).
    unfold momentum, entropic_poly. do 2 (destruct a as [|a]; [nine; cbn [pfac]; field|]). lia.
  Qed.
  Lemma entropic_moment2 a b : s <> 0 -> (a < 2)%nat -> (b < 2)%nat -> moment2 st feq a b = entropic_flux s rho (fun a => s * vec [ux; uy] a) a b.
  Proof.
    intros Hs Ha Hb. unfold st, feq. rewrite (moment2_ext _ _ (entropic_poly rho ux uy)) by (intros; apply entropic_form; assumption).
    unfold moment2, entropic_poly, entropic_flux.
    do 2 (destruct a as [|a]; [do 2 (destruct b as [|b]; [cbn [Nat.eqb]; nine;
      rewrite ?(Rinv_r_simpl_m s ux Hs), ?(Rinv_r_simpl_m s uy Hs);
      try (replace (s * ux / s) with ux by (field; exact Hs)); try (replace (s * uy / s) with uy by (field; exact Hs));
      try (change (sqrt (1 + 3 * (ux * ux))) with (fS ux)); try (change (sqrt (1 + 3 * (uy * uy))) with (fS uy)); cbn [pfac]; unfold fA; field|]); lia|]). lia.
  Qed.
End EqMoments.
