(** The equilibria of the KBC classes: moments, positivity, fixed points. *)
From Coq Require Import QArith Qreals.
From Verif Require Import Prelude StencilData ModelStencils SpecStencils SpecCollision BigSum ProofStencils ProofEqMoments
  ModelConfigNames ModelEquilibria ModelCollision ModelOldCollision SpecOldCollision ProofOldCollision ProofOldNode ProofOldNode2 ModelEntropic SpecEntropic ProofKBC ProofKBC9 ProofKBCEq ProofKBCNode.
Local Open Scope R_scope.

Lemma cpow_inv x y z : cpow x y = Ok z -> 0 < x /\ z = Rpower x y.
Proof. unfold cpow. destruct (Rlt_dec 0 x); [|discriminate]. intros H. split; congruence. Qed.

(** The base of the power is positive exactly below the lattice speed. *)
Lemma fx_pos_inv u : 0 < fx u -> 1 - u <> 0 -> u * u < 1.
Proof.
  intros H N. assert (Hs := fS_sq u). assert (Hp := fS_pos u). unfold fx in H.
  apply Rnot_le_lt. intros L. assert (C : u <= -1 \/ 1 <= u) by nra. destruct C as [C|C].
  - assert (2 * u + fS u <= 0) by nra. assert (0 < / (1 - u)) by (apply Rinv_0_lt_compat; lra). unfold Rdiv in H. nra.
  - assert (0 < 2 * u + fS u) by lra. assert (/ (1 - u) < 0) by (apply Rinv_lt_0_compat; lra). unfold Rdiv in H. nra.
Qed.

(** One step of the product: two factors. *)
Lemma product_step st s u i n value w : entropic_product st s u i (S n) value = Ok w ->
  (u n / s) * (u n / s) < 1 /\ exists v, entropic_product st s u i n value = Ok v /\ w = v * fA (u n / s) * Rpower (fx (u n / s)) (st_e st i n / s).
Proof.
  cbn [entropic_product]. destruct (entropic_product st s u i n value) as [v| |]; try discriminate. cbn [obind]. cbv zeta.
  rewrite fx_code, fS_code. destruct (Req_EM_T _ 0) as [E|E]; [discriminate|].
  destruct (cpow _ _) as [z| |] eqn:P; try discriminate. cbn [obind]. intros H. apply cpow_inv in P. destruct P as [P1 P2].
  replace (u n / s * sqrt 3 / sqrt 3) with (u n / s) in E by (unfold Rdiv; rewrite Rmult_assoc, Rinv_r by exact sqrt3_neq; ring).
  split; [apply fx_pos_inv; assumption|]. exists v. split; [reflexivity|]. unfold fA. subst z. congruence.
Qed.
Lemma product_runs st s u i n value : (forall a, (a < n)%nat -> (u a / s) * (u a / s) < 1) -> exists w, entropic_product st s u i n value = Ok w.
Proof.
  induction n as [|n IH]; intros H; cbn [entropic_product]; [eexists; reflexivity|].
  destruct IH as [v E]; [intros; apply H; lia|]. rewrite E. cbn [obind]. cbv zeta. rewrite fx_code.
  assert (L := H n (Nat.lt_succ_diag_r n)).
  replace (u n / s * sqrt 3 / sqrt 3) with (u n / s) by (unfold Rdiv; rewrite Rmult_assoc, Rinv_r by exact sqrt3_neq; ring).
  destruct (Req_EM_T _ 0) as [E0|_]; [exfalso; replace (u n / s) with 1 in L by lra; lra|].
  unfold cpow. destruct (Rlt_dec 0 (fx (u n / s))) as [_|N]; [|exfalso; apply N, fx_pos; exact L].
  cbn [obind]. eexists; reflexivity.
Qed.

Lemma power_pfac u : u * u < 1 ->
  4 * (fA u * Rpower (fx u) 0) = pfac u 0 /\ fA u * Rpower (fx u) 1 = pfac u 1 /\ fA u * Rpower (fx u) (-1) = pfac u (-1).
Proof.
  intros H. assert (P := fx_pos u H). destruct (pfac_spec u (Rlt_not_eq _ _ H)) as (E0 & E1 & E2).
  split; [rewrite Rpower_O by exact P; lra|]. split; [rewrite Rpower_1 by exact P; exact E1|].
  replace (-1) with (- (1)) by ring. rewrite Rpower_Ropp, Rpower_1 by exact P. exact E2.
Qed.

Section Standard.
  Variables (s rho : R) (u : nat -> R).
  Hypothesis Hs : s <> 0.
  Let ux := u 0%nat / s.
  Let uy := u 1%nat / s.
  Lemma standard_eq_inv i g : (i < 9)%nat -> entropic_eq KBCStandard Stencil_D2Q9 s rho u i = Ok g ->
    0 < rho /\ ux * ux < 1 /\ uy * uy < 1 /\ g = entropic_D2Q9 rho ux uy i.
  Proof.
    intros Hi H. unfold entropic_eq in H. cbv zeta in H. destruct (eq_asserts rho u) eqn:A; [|discriminate].
    assert (Hr : 0 < rho) by (unfold eq_asserts in A; destruct (Rlt_dec 0 rho); [assumption|discriminate]).
    change (st_D (stencil_of Stencil_D2Q9 s)) with 2%nat in H.
    apply product_step in H. destruct H as (Ly & v1 & H & ->). apply product_step in H. destruct H as (Lx & v0 & H & ->).
    cbn [entropic_product] in H. injection H as <-. fold ux in Lx. fold uy in Ly. split; [exact Hr|]. split; [exact Lx|]. split; [exact Ly|].
    rewrite entropic_form by (apply Rlt_not_eq; assumption). fold ux uy.
    destruct (power_pfac ux Lx) as (X0 & X1 & X2). destruct (power_pfac uy Ly) as (Y0 & Y1 & Y2).
    unfold entropic_poly. rewrite <- X0, <- X1, <- X2, <- Y0, <- Y1, <- Y2. cbn [stencil_of D2Q9 st_e st_w].
    assert (Z0 : 0 * s / s = 0) by (field; exact Hs). assert (Z1 : 1 * s / s = 1) by (field; exact Hs). assert (Z2 : -1 * s / s = -1) by (field; exact Hs).
    assert (Z0' : 0 / s = 0) by (field; exact Hs). assert (Z1' : s / s = 1) by (field; exact Hs). assert (Z2' : - s / s = -1) by (field; exact Hs).
    do 9 (destruct i as [|i]; [unfold vec; cbn [nth]; lit15;
       repeat match goal with |- context [Rpower (fx ?a) (?e / s)] =>
         first [replace (e / s) with 0 by (field; exact Hs)|replace (e / s) with 1 by (field; exact Hs)|replace (e / s) with (-1) by (field; exact Hs)] end; field|]). lia.
  Qed.
  Lemma standard_eq_runs i : 0 < rho -> u 0%nat < 10^15 -> u 1%nat < 10^15 -> ux * ux < 1 -> uy * uy < 1 ->
    exists g, entropic_eq KBCStandard Stencil_D2Q9 s rho u i = Ok g.
  Proof.
    intros Hr H0 H1 Hx Hy. unfold entropic_eq. cbv zeta.
    assert (A : eq_asserts rho u = true).
    { unfold eq_asserts. destruct (Rlt_dec 0 rho); [|contradiction]. destruct (Rlt_dec (u 0%nat) (10^15)); [|contradiction]. destruct (Rlt_dec (u 1%nat) (10^15)); [reflexivity|contradiction]. }
    rewrite A. apply product_runs. intros a Ha. change (st_D (stencil_of Stencil_D2Q9 s)) with 2%nat in Ha.
    do 2 (destruct a as [|a]; [assumption|]). lia.
  Qed.
End Standard.
