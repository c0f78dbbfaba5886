(** Counterexamples for the KBC classes. *)
From Coq Require Import QArith Qreals.
From Verif Require Import Prelude StencilData StabilizerData ModelStencils SpecStencils SpecCollision BigSum ProofStencils ProofEqMoments
  ModelConfigNames ModelEquilibria ModelCollision ModelOldCollision SpecOldCollision ProofOldCollision ProofOldNode ProofOldNode2 ModelEntropic SpecEntropic ProofKBC ProofKBC9
  ProofKBCEq ProofKBCNode ProofKBCFix.
Local Open Scope R_scope.

Lemma make_entropic_ok t s nu dt tau : 0 < nu -> 0 < dt -> nu / (dt * st_cs2 (stencil_of t s)) = tau -> make_entropic t s nu dt = Ok (old_new t s tau dt).
Proof.
  intros Hn Hd E. unfold make_entropic, calculateRelaxationParameter. destruct (Rlt_dec 0 nu); [|contradiction]. destruct (Rlt_dec 0 dt); [|contradiction].
  cbn [obind]. rewrite <- E. reflexivity.
Qed.

(** With relaxation parameter 1/2 the result is the equilibrium. *)
Lemma relax_half Q k shear f feq f' i : kbc_relax Q (1/2) k shear f feq = Ok f' -> f' i = feq i.
Proof.
  intros H. destruct (relax_form _ _ _ _ _ _ _ H) as [_ E]. rewrite E.
  assert (B : kbc_beta (1/2) = 1/2) by (unfold kbc_beta; field). rewrite B. unfold kbc_gamma. destruct (Rlt_dec _ _); [field|].
  replace (2 - 1 / (1/2)) with 0 by field. rewrite Rmult_0_l. field.
Qed.

(** ** D3Q15 with scaling 2 *)
Definition lumped (i : nat) : R := vec [2/9; 1 + 1/9; 1/9; 1/9; 1/9; 1/9; 1/9; 1/72; 1/72; 1/72; 1/72; 1/72; 1/72; 1/72; 1/72] i.
Definition model15 : old_model := old_new Stencil_D3Q15 2 (1/2) 1.
Lemma lumped_mass : sumf 15 lumped = 2.
Proof. cbn [sumf]. unfold lumped, vec. cbn [nth]. lra. Qed.
Lemma lumped_u : raw_D3Q15 2 2 lumped 0%nat = 1 /\ raw_D3Q15 2 2 lumped 1%nat = 0 /\ raw_D3Q15 2 2 lumped 2%nat = 0.
Proof. unfold raw_D3Q15, vec. cbn [nth]. unfold lumped, vec. cbn [nth]. repeat split; lra. Qed.

Lemma scaled15 : make_entropic Stencil_D3Q15 2 (2/3) 1 = Ok model15 /\
  exists o, entropic_node KBCStandard model15 false lumped (fun _ => 0) = Ok o /\ mass (D3Q15 2) (no_f o) = 2 * (1 + 9/32) /\ mass (D3Q15 2) lumped = 2.
Proof.
  split; [apply make_entropic_ok; try lra; cbn; field|].
  unfold entropic_node. cbn [model15 old_new om_t]. unfold node_kbc_D3Q15. cbn [model15 old_new om_s om_tau]. cbv zeta. rewrite lumped_mass, checked_ok by lra.
  destruct lumped_u as (U0 & U1 & U2). rewrite U0, U1, U2.
  set (feq := feq_D3Q15 _ _ _ _).
  assert (F : forall i, (i < 15)%nat -> feq i = vec [2 * (2/9) * (29/32); 2/9 * (113/32); 2/9 * (17/32); 2/9 * (29/32); 2/9 * (29/32); 2/9 * (29/32); 2/9 * (29/32);
     2/72 * (113/32); 2/72 * (17/32); 2/72 * (113/32); 2/72 * (17/32); 2/72 * (113/32); 2/72 * (17/32); 2/72 * (113/32); 2/72 * (17/32)] i).
  { intros i Hi. unfold feq, feq_D3Q15. cbv zeta. rewrite U0, U1, U2. unfold ModelOldCollision.plus, minus. cbn [D3Q15 st_cs2].
    do 15 (destruct i as [|i]; [unfold vec; cbn [nth]; field|]). lia. }
  destruct (relax_runs 15 (1/2) (kinematic_D3Q15 2 (1/2) (0/2) (0/2)) (shear_D3Q15 2) lumped feq) as [f' E].
  { intros i Hi. rewrite (F i Hi). do 15 (destruct i as [|i]; [unfold vec; cbn [nth]; lra|]). lia. }
  fold model15. rewrite E. cbn [obind]. eexists. split; [reflexivity|]. cbn [no_f]. split; [|exact lumped_mass].
  unfold mass. rewrite (sumf_ext _ f' feq) by (intros; apply (relax_half _ _ _ _ _ _ _ E)). change (st_Q (D3Q15 2)) with 15%nat.
  rewrite (sumf_ext 15 feq _ F). cbn [sumf]. unfold vec. cbn [nth]. field.
Qed.

(** ** Shear stress on D3Q15 *)
Definition sheared (i : nat) : R := vec [2/9; 1/9; 1/9; 1/9; 1/9; 1/9; 1/9; 1/48; 1/48; 1/48; 1/48; 1/144; 1/144; 1/144; 1/144] i.
Definition model15s : old_model := old_new Stencil_D3Q15 1 1 1.
Definition w15 : nat -> R := vec [2/9; 1/9; 1/9; 1/9; 1/9; 1/9; 1/9; 1/72; 1/72; 1/72; 1/72; 1/72; 1/72; 1/72; 1/72].
Lemma sheared15 : make_entropic Stencil_D3Q15 1 (1/3) 1 = Ok model15s /\
  exists o, entropic_node KBCStandard model15s false sheared (fun _ => 0) = Ok o /\ stress (D3Q15 1) sheared 0 1 = 1/18 /\ stress (D3Q15 1) (no_f o) 0 1 = 0.
Proof.
  split; [apply make_entropic_ok; try lra; cbn; field|].
  assert (M : sumf 15 sheared = 1) by (cbn [sumf]; unfold sheared, vec; cbn [nth]; lra).
  assert (U : raw_D3Q15 1 1 sheared 0%nat = 0 /\ raw_D3Q15 1 1 sheared 1%nat = 0 /\ raw_D3Q15 1 1 sheared 2%nat = 0).
  { unfold raw_D3Q15, vec. cbn [nth]. unfold sheared, vec. cbn [nth]. repeat split; lra. }
  unfold entropic_node. cbn [model15s old_new om_t]. unfold node_kbc_D3Q15. cbn [model15s old_new om_s om_tau]. cbv zeta. rewrite M, checked_ok by lra.
  destruct U as (U0 & U1 & U2). rewrite U0, U1, U2.
  set (feq := feq_D3Q15 _ _ _ _).
  assert (F : forall i, (i < 15)%nat -> feq i = w15 i).
  { intros i Hi. unfold feq, feq_D3Q15. cbv zeta. rewrite U0, U1, U2. unfold ModelOldCollision.plus, minus, w15. cbn [D3Q15 st_cs2].
    do 15 (destruct i as [|i]; [unfold vec; cbn [nth]; field|]). lia. }
  destruct (relax_runs 15 1 (kinematic_D3Q15 1 (0/1) (0/1) (0/1)) (shear_D3Q15 1) sheared feq) as [f' E].
  { intros i Hi. rewrite (F i Hi). unfold w15. do 15 (destruct i as [|i]; [unfold vec; cbn [nth]; lra|]). lia. }
  fold model15s. rewrite E. cbn [obind]. eexists. split; [reflexivity|]. cbn [no_f].
  assert (S : forall i, shear_D3Q15 1 sheared i = shear_D3Q15 1 feq i).
  { intros i. unfold shear_D3Q15. cbv zeta. rewrite !F by lia. unfold sheared, w15. unfold vec at 1 2.
    do 15 (destruct i as [|i]; [unfold vec; cbn [nth]; field|]). destruct i; reflexivity. }
  assert (R : forall i, (i < 15)%nat -> f' i = w15 i).
  { intros i Hi. destruct (relax_form _ _ _ _ _ _ _ E) as [_ G]. rewrite G, <- (F i Hi).
    assert (B : kbc_beta 1 = 1/3) by (unfold kbc_beta; field). rewrite B. unfold kbc_gamma.
    match goal with |- context [Rlt_dec ?h _] => set (hh := h) end. match goal with |- context [?a / hh] => set (ss := a) end.
    assert (Z : ss = 0) by (unfold ss, entropic_sum; apply sumf_zero; intros j _; rewrite (S j); unfold Rdiv; ring).
    assert (P : hh = 1/36).
    { unfold hh, entropic_sum. rewrite (sumf_ext 15 _ (fun j => (sheared j - w15 j) * (sheared j - w15 j) / w15 j)) by (intros j Hj; rewrite (S j), (F j Hj); unfold Rdiv; ring).
      cbn [sumf]. unfold sheared, w15, vec. cbn [nth]. field. }
    rewrite Z, (S i). destruct (Rlt_dec hh (1 / 10^16)) as [L|_]; [exfalso; rewrite P in L; lra|]. field. lra. }
  split.
  - unfold stress, moment2, momentum, mass, delta. cbn [Nat.eqb]. unfold sheared. nine. field.
  - unfold stress. rewrite (moment2_ext (D3Q15 1) f' w15 0 1 R), (momentum_ext (D3Q15 1) f' w15 0 R), (momentum_ext (D3Q15 1) f' w15 1 R), (mass_ext (D3Q15 1) f' w15 R).
    unfold moment2, momentum, mass, delta, w15. cbn [Nat.eqb]. nine. field.
Qed.

(** ** Product form on D3Q15 *)
Definition diagonal : nat -> R := fun _ => 4/11.
Definition product15 : nat -> R := fun i =>
  (9/11)^3 * vec [2/9; 1/9 * 3; 1/9 / 3; 1/9 * 3; 1/9 / 3; 1/9 * 3; 1/9 / 3; 1/72 * 27; 1/72 / 27; 1/72 * 3; 1/72 / 3; 1/72 * 3; 1/72 / 3; 1/72 / 3; 1/72 * 3] i.
Lemma fS_diag : fS (4/11) = 13/11.
Proof. unfold fS. replace (1 + 3 * (4/11 * (4/11))) with ((13/11) * (13/11)) by field. apply sqrt_square. lra. Qed.
Lemma fx_diag : fx (4/11) = 3.
Proof. unfold fx. rewrite fS_diag. field. Qed.
Lemma p1 : Rpower 3 1 = 3. Proof. apply Rpower_1. lra. Qed.
Lemma p0 : Rpower 3 0 = 1. Proof. apply Rpower_O. lra. Qed.
Lemma pm : Rpower 3 (-1) = /3. Proof. replace (-1) with (- (1)) by ring. rewrite Rpower_Ropp, p1. reflexivity. Qed.

Lemma product15_eq i : (i < 15)%nat -> entropic_eq KBCStandard Stencil_D3Q15 1 1 diagonal i = Ok (product15 i).
Proof.
  intros Hi. unfold entropic_eq. cbv zeta.
  assert (A : eq_asserts 1 diagonal = true).
  { unfold eq_asserts, diagonal. destruct (Rlt_dec 0 1); [|lra]. destruct (Rlt_dec (4/11) (10^15)); [reflexivity|lra]. }
  rewrite A. destruct (product_runs (stencil_of Stencil_D3Q15 1) 1 diagonal i 3 (st_w (stencil_of Stencil_D3Q15 1) i * 1)) as [v E]; [intros; unfold diagonal; lra|].
  change (st_D (stencil_of Stencil_D3Q15 1)) with 3%nat. rewrite E. f_equal.
  apply product_step in E. destruct E as (_ & v2 & E & ->). apply product_step in E. destruct E as (_ & v1 & E & ->). apply product_step in E. destruct E as (_ & v0 & E & ->).
  cbn [entropic_product] in E. injection E as <-. unfold diagonal. replace (4 / 11 / 1) with (4/11) by field. unfold fA. rewrite fS_diag, fx_diag.
  cbn [stencil_of D3Q15 st_e st_w]. unfold product15.
  do 15 (destruct i as [|i]; [unfold vec; cbn [nth]; lit15;
    repeat match goal with |- context [Rpower 3 ?e] => first [replace e with 0 by field; rewrite p0|replace e with 1 by field; rewrite p1|replace e with (-1) by field; rewrite pm] end; field|]). lia.
Qed.
Lemma product15_mass : mass (D3Q15 1) product15 <> 1.
Proof. unfold mass, product15. nine. lra. Qed.
