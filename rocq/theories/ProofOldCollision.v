(** The collision objects of the initialisation: equilibria, single nodes, loops. *)
From Coq Require Import QArith Qreals.
From Verif Require Import Prelude StencilData MRTEntropicData ModelStencils SpecStencils SpecCollision BigSum ProofStencils
  ProofWick ModelConfigNames ModelEquilibria ModelCollision SpecSetup ProofEquilibria ProofQuartic ProofEqMoments ProofRelax
  ProofCollideNode ProofForces ProofFixed ProofCollideAll ProofCompressible ProofPhysical ModelOldCollision SpecOldCollision.
Local Open Scope R_scope.

Ltac lit15 := unfold tbl, tblQ, wtbl; cbn [nth D2Q9_dir D2Q9_wt D3Q19_dir D3Q19_wt D3Q15_dir D3Q15_wt]; unfold Q2R;
  cbn [QArith_base.Qnum QArith_base.Qden].

(** ** Equilibria *)
Lemma e_zero t s j : closed_form t = true -> st_e (stencil_of t s) 0 j = 0.
Proof.
  destruct t; try discriminate; intros _; cbn [stencil_of D2Q9 D3Q15 D3Q19 D3Q27 RD3Q27 D3Q13 D2Q25H st_e];
    unfold tbl, tblQ, tblR, D3Q13_rows, D2Q25H_rows; cbv zeta;
    cbn [nth D2Q9_dir D3Q15_dir D3Q19_dir D3Q27_dir RD3Q27_dir];
    destruct j as [|[|[|j]]]; cbn [nth]; try (destruct j); unfold Q2R; cbn [QArith_base.Qnum QArith_base.Qden]; try field; lra.
Qed.

Definition standard_equilibrium (c : old_class) : Prop :=
  match c with BGKSteadyState _ | BGKStandardTransformed => False | _ => True end.

Section Eq.
  Variables (t : StencilType) (s : R).
  Hypothesis Ht : closed_form t = true.
  Hypothesis Hs : s <> 0.
  Let st := stencil_of t s.
  Let Hiso : isotropic st (moment_order t) := isotropic_all t s Ht.
  Let Hcs : st_cs2 st <> 0.
  Proof. apply Rgt_not_eq, Rlt_gt, cs2_pos. assumption. Qed.
  Let H5 : (5 <= moment_order t)%nat := order5 t Ht.

  Lemma sp_uu u : - sp (st_D st) u u / (2 * st_cs2 st) = uu_term st u.
  Proof.
    unfold sp, uu_term, Rdiv. rewrite <- Ropp_mult_distr_l, Ropp_mult_distr_r, <- sumf_scal_r. apply sumf_ext. intros. ring.
  Qed.
  Lemma sp_ue u i : sp (st_D st) u (st_e st i) / st_cs2 st = ue_term st u i.
  Proof. unfold sp, ue_term, Rdiv. rewrite <- sumf_scal_r. reflexivity. Qed.
  Lemma ue_zero u : ue_term st u 0 = 0.
  Proof. apply sumf_zero. intros j _. unfold st. rewrite e_zero by assumption. unfold Rdiv. ring. Qed.

  Lemma old_eq_standard c rho u i : standard_equilibrium c -> old_eq c st rho u i = BGKEquilibrium_generic st rho u i.
  Proof.
    intros Hc. unfold old_eq, BGKEquilibrium_generic. cbv zeta. rewrite sp_uu, sp_ue.
    destruct c; try contradiction; destruct i; try reflexivity; rewrite ue_zero; ring.
  Qed.
  Lemma old_eq_steady gamma rho u i : old_eq (BGKSteadyState gamma) st rho u i = SteadyStateEquilibrium_calc st gamma rho u i.
  Proof.
    unfold old_eq, SteadyStateEquilibrium_calc. cbv zeta. rewrite sp_uu, sp_ue.
    destruct i; [rewrite ue_zero|]; unfold Rdiv; ring.
  Qed.
  Lemma old_eq_transformed rho u i : old_eq BGKStandardTransformed st rho u i = BGKEquilibrium_generic st rho u i - st_w st i * rho0.
  Proof.
    unfold old_eq, BGKEquilibrium_generic. cbv zeta. rewrite sp_uu, sp_ue.
    destruct i; try reflexivity; rewrite ue_zero; ring.
  Qed.

  Lemma weights_mass : mass st (fun i => st_w st i * rho0) = 1.
  Proof.
    rewrite (mass_ext st _ (fun i => st_w st i * 1 * 1)) by (intros; unfold rho0; ring).
    rewrite mass_Ex, (Ex1 st _ Hiso). ring.
  Qed.
  Lemma weights_momentum a : (a < st_D st)%nat -> momentum st (fun i => st_w st i * rho0) a = 0.
  Proof.
    intros Ha. rewrite (momentum_ext st _ (fun i => st_w st i * 1 * 1)) by (intros; unfold rho0; ring).
    rewrite momentum_Ex. rewrite (Ex_ext st _ (fun i => eprod st i [a])) by (intros; cbn [eprod]; ring).
    rewrite (Ex_odd st _ Hiso [a]) by (try reflexivity; try (repeat constructor; assumption); cbn [length]; lia). ring.
  Qed.

  (** mass the equilibrium of a class carries for density [rho] *)
  Definition eq_mass (c : old_class) (rho : R) : R := match c with BGKStandardTransformed => rho - 1 | _ => rho end.

  Lemma old_eq_mass c rho u : mass st (old_eq c st rho u) = eq_mass c rho.
  Proof.
    destruct c; cbn [eq_mass];
    try (match goal with |- mass _ (old_eq ?c _ _ _) = _ => rewrite (mass_ext st _ _ (fun i _ => old_eq_standard c rho u i I)) end; apply (bgk_mass st _ Hiso Hcs H5)).
    - rewrite (mass_ext st _ _ (fun i _ => old_eq_steady gamma rho u i)); apply (ss_mass st _ Hiso Hcs H5).
    - rewrite (mass_ext st _ _ (fun i _ => old_eq_transformed rho u i)).
      unfold mass. rewrite sumf_minus. fold (mass st (BGKEquilibrium_generic st rho u)) (mass st (fun i => st_w st i * rho0)).
      rewrite weights_mass, (bgk_mass st _ Hiso Hcs H5). reflexivity.
  Qed.
  Lemma old_eq_momentum c rho u a : (a < st_D st)%nat -> momentum st (old_eq c st rho u) a = rho * u a.
  Proof.
    intros Ha. destruct c;
    try (match goal with |- momentum _ (old_eq ?c _ _ _) _ = _ => rewrite (momentum_ext st _ _ a (fun i _ => old_eq_standard c rho u i I)) end; apply (bgk_momentum st _ Hiso Hcs H5); assumption).
    - rewrite (momentum_ext st _ _ a (fun i _ => old_eq_steady gamma rho u i)); apply (ss_momentum st _ Hiso Hcs H5); assumption.
    - rewrite (momentum_ext st _ _ a (fun i _ => old_eq_transformed rho u i)). unfold momentum.
      rewrite (sumf_ext _ _ (fun i => BGKEquilibrium_generic st rho u i * st_e st i a - st_w st i * rho0 * st_e st i a)) by (intros; ring).
      rewrite sumf_minus. fold (momentum st (BGKEquilibrium_generic st rho u) a) (momentum st (fun i => st_w st i * rho0) a).
      rewrite weights_momentum, (bgk_momentum st _ Hiso Hcs H5) by assumption. ring.
  Qed.

  (** ** Relaxation towards an equilibrium *)
  Lemma relaxed_mass r f feq : mass st (add_relaxed r f feq) = mass st f + r * (mass st f - mass st feq).
  Proof. unfold mass, add_relaxed. rewrite sumf_plus, sumf_scal, sumf_minus. reflexivity. Qed.
  Lemma relaxed_momentum r f feq a :
    momentum st (add_relaxed r f feq) a = momentum st f a + r * (momentum st f a - momentum st feq a).
  Proof.
    unfold momentum, add_relaxed.
    rewrite (sumf_ext _ _ (fun i => f i * st_e st i a + r * (f i * st_e st i a - feq i * st_e st i a))) by (intros; ring).
    rewrite sumf_plus, sumf_scal, sumf_minus. reflexivity.
  Qed.
End Eq.

Lemma old_eq_ext c st rho u v i : (forall a, (a < st_D st)%nat -> u a = v a) -> old_eq c st rho u i = old_eq c st rho v i.
Proof.
  intros H. unfold old_eq.
  assert (E1 : sp (st_D st) u u = sp (st_D st) v v) by (apply sumf_ext; intros a Ha; rewrite (H a Ha); reflexivity).
  assert (E2 : sp (st_D st) u (st_e st i) = sp (st_D st) v (st_e st i)) by (apply sumf_ext; intros a Ha; rewrite (H a Ha); reflexivity).
  rewrite E1, E2. reflexivity.
Qed.

(** ** Written-out equilibria and velocities *)
Lemma feq9_ok s rho v i : s <> 0 -> (i < 9)%nat ->
  feq_D2Q9 (1/2) (- (v 0%nat * v 0%nat + v 1%nat * v 1%nat) / (2 * st_cs2 (D2Q9 s))) (s / st_cs2 (D2Q9 s)) rho v i
  = old_eq BGKStandard (D2Q9 s) rho v i.
Proof.
  intros Hs Hi. unfold feq_D2Q9, old_eq, sp, plus, minus. cbv zeta. cbn [D2Q9 st_D st_cs2 st_e st_w sumf].
  do 9 (destruct i as [|i]; [unfold vec; cbn [nth]; lit15; field; repeat split; assumption|]). lia.
Qed.
Lemma feq9_steady_ok gamma s rho v i : s <> 0 -> gamma <> 0 -> (i < 9)%nat ->
  feq_D2Q9 (1/2 / gamma) (1/2 / gamma * (- (v 0%nat * v 0%nat + v 1%nat * v 1%nat) / st_cs2 (D2Q9 s))) (s / st_cs2 (D2Q9 s)) rho v i
  = old_eq (BGKSteadyState gamma) (D2Q9 s) rho v i.
Proof.
  intros Hs Hg Hi. unfold feq_D2Q9, old_eq, sp, plus, minus. cbv zeta. cbn [D2Q9 st_D st_cs2 st_e st_w sumf].
  do 9 (destruct i as [|i]; [unfold vec; cbn [nth]; lit15; field; repeat split; assumption|]). lia.
Qed.
Lemma feq9_transformed_ok s rho v i : s <> 0 -> (i < 9)%nat ->
  feq_transformed (- (v 0%nat * v 0%nat + v 1%nat * v 1%nat) / (2 * st_cs2 (D2Q9 s))) (s / st_cs2 (D2Q9 s)) rho v i
  = old_eq BGKStandardTransformed (D2Q9 s) rho v i.
Proof.
  intros Hs Hi. unfold feq_transformed, old_eq, sp, plus, minus. cbv zeta. cbn [D2Q9 st_D st_cs2 st_e st_w sumf].
  do 9 (destruct i as [|i]; [unfold vec; cbn [nth]; lit15; field; repeat split; assumption|]). lia.
Qed.
Lemma feq19_ok s rho v i : s <> 0 -> (i < 19)%nat ->
  feq_D3Q19 (- (v 0%nat * v 0%nat + v 1%nat * v 1%nat + v 2%nat * v 2%nat) / (2 * st_cs2 (D3Q19 s))) (s / st_cs2 (D3Q19 s)) rho v i
  = old_eq BGKStandard (D3Q19 s) rho v i.
Proof.
  intros Hs Hi. unfold feq_D3Q19, old_eq, sp, plus, minus. cbv zeta. cbn [D3Q19 st_D st_cs2 st_e st_w sumf].
  do 19 (destruct i as [|i]; [unfold vec; cbn [nth]; lit15; field; repeat split; assumption|]). lia.
Qed.
Lemma feq15_ok s rho v i : s <> 0 -> (i < 15)%nat ->
  feq_D3Q15 (- (v 0%nat * v 0%nat + v 1%nat * v 1%nat + v 2%nat * v 2%nat) / (2 * st_cs2 (D3Q15 s))) (s / st_cs2 (D3Q15 s)) rho v i
  = old_eq BGKStandard (D3Q15 s) rho v i.
Proof.
  intros Hs Hi. unfold feq_D3Q15, old_eq, sp, plus, minus. cbv zeta. cbn [D3Q15 st_D st_cs2 st_e st_w sumf].
  do 15 (destruct i as [|i]; [unfold vec; cbn [nth]; lit15; field; repeat split; assumption|]). lia.
Qed.

Lemma raw9_ok s rho f a : rho <> 0 -> (a < 2)%nat -> raw_D2Q9 s rho f a = momentum (D2Q9 s) f a / rho.
Proof.
  intros Hr Ha. unfold raw_D2Q9, momentum. cbn [D2Q9 st_Q st_e sumf].
  do 2 (destruct a as [|a]; [unfold vec; cbn [nth]; lit15; field; assumption|]). lia.
Qed.
Lemma raw19_ok s rho f a : rho <> 0 -> (a < 3)%nat -> raw_D3Q19 s rho f a = momentum (D3Q19 s) f a / rho.
Proof.
  intros Hr Ha. unfold raw_D3Q19, momentum. cbn [D3Q19 st_Q st_e sumf].
  do 3 (destruct a as [|a]; [unfold vec; cbn [nth]; lit15; field; assumption|]). lia.
Qed.
Lemma raw15_ok s rho f a : rho <> 0 -> (a < 3)%nat -> raw_D3Q15 s rho f a = momentum (D3Q15 s) f a / rho.
Proof.
  intros Hr Ha. unfold raw_D3Q15, momentum. cbn [D3Q15 st_Q st_e sumf].
  do 3 (destruct a as [|a]; [unfold vec; cbn [nth]; lit15; field; assumption|]). lia.
Qed.
