(** Regularized collision on every stencil, up to the tolerance of the stencil. *)
From Verif Require Import Prelude ModelStencils SpecStencils SpecCollision BigSum ProofStencils ProofStencilMoments ProofWick
  ModelConfigNames ModelEquilibria ModelCollision SpecSetup ProofEquilibria ProofQuartic ProofEqMoments ProofRelax ProofCollideNode ProofForces
  SpecNear ProofNear ProofNearEq ProofNearCollide.
Local Open Scope R_scope.

Lemma her2_eprod L P l : Ex L (fun i => her2 L P i * eprod L i l) =
  sumf (st_D L) (fun b => sumf (st_D L) (fun c => P b c / (2 * st_cs2 L * st_cs2 L) *
    (Ex L (fun i => eprod L i (b :: c :: l)) - st_cs2 L * delta b c * Ex L (fun i => eprod L i l)))).
Proof.
  transitivity (Ex L (fun i => sumf (st_D L) (fun b => sumf (st_D L) (fun c => P b c / (2 * st_cs2 L * st_cs2 L) *
       (eprod L i (b :: c :: l) - st_cs2 L * delta b c * eprod L i l))))).
  - apply Ex_ext. intros i. unfold her2. rewrite <- sumf_scal_r. apply sumf_ext. intros b _. rewrite <- sumf_scal_r. apply sumf_ext. intros c _.
    cbn [eprod]. unfold Rdiv. ring.
  - rewrite Ex_sum. apply sumf_ext. intros b _. rewrite Ex_sum. apply sumf_ext. intros c _. rewrite Ex_scal, Ex_minus, Ex_scal. reflexivity.
Qed.

Lemma regularized_near q cfg t s nu dt f u o feq : (5 <= moment_order t)%nat -> valid_setup cfg s nu dt ->
  cc_equilibrium cfg <> STEADYSTATE_EQUILIBRIUM -> q = BGKEquilibrium \/ q = QuarticEquilibrium ->
  collide_node Regularized q (make_genData cfg None (stencil_of t s) s nu dt) false f u = Ok o ->
  let st := stencil_of t s in
  let v := fun a => momentum st f a / mass st f in
  let tau := nu / (dt * st_cs2 st) + 1/2 in
  let N := moment_tol t * mass st f * (1 + mach st v) ^ 4 in
  equilibrium_populations q cfg st s (mass st f) v 1 feq ->
  Rabs (mass st (no_f o) - mass st f) <= N + Rabs (1 - 1 / tau) * (moment_tol t *
     sumf (st_D st) (fun b => sumf (st_D st) (fun c => Rabs (moment2 st f b c - moment2 st feq b c))) / st_cs2 st) /\
  (forall a, (a < st_D st)%nat -> Rabs (momentum st (no_f o) a - momentum st f a) <= N * Rabs (st_cs st)) /\
  no_rho o = mass st f /\ (forall a, (a < st_D st)%nat -> no_u o a = v a).
Proof.
  intros H5 Hv Hss Hq H st v tau N Hfeq. assert (Hs : s <> 0) by (destruct Hv; lra).
  pose proof (tau_gd cfg None (stencil_of t s) s nu dt Hss) as Htg.
  set (gd := make_genData cfg None (stencil_of t s) s nu dt) in *. fold st in Htg. fold tau in Htg.
  destruct (node_inv _ q gd f u o eq_refl H) as [Hd [Hrho [Hu [fe Hrel]]]].
  change (gd_L gd) with (unscale st s) in *. set (L := unscale st s) in *. set (rho := sumf (st_Q L) f) in *.
  change (mass st f) with rho in *.
  assert (Hr0 : rho <> 0) by (apply dens_neq0; assumption).
  assert (Hrp : 0 < rho) by (eapply Rlt_le_trans; [|exact Hd]; apply Rdiv_lt_0_compat; [lra|apply pow_lt; lra]).
  unfold relax in Hrel. cbv zeta in Hrel. change (gd_L gd) with L in Hrel.
  destruct (eq_calc q L (gd_gamma_ss gd) rho (calculateVelocity L f rho) 1) as [e| |] eqn:He; try discriminate.
  cbn [obind] in Hrel. assert (Hf1 : relax_Regularized L (gd_tau gd) f e = no_f o) by congruence. rewrite Htg in Hf1. clear Hrel.
  pose proof (node_eqpop t s Hs f Hr0 cfg q _ 1 e Hq He) as Heq. fold st L rho in Heq. change (node_velocity st f) with v in Heq.
  assert (Hee : forall i, (i < st_Q st)%nat -> e i = feq i).
  { intros i Hi. destruct Heq as [h1 [E1 F1]]. destruct Hfeq as [h2 [E2 F2]]. rewrite F1, F2 by assumption. congruence. }
  assert (Hm : 0 <= mach st v) by apply mach_nonneg.
  destruct (near_carrying q cfg t s rho v e Hs H5 Hrp Hq Heq) as [E0 E1]. fold st in E0, E1. change (moment_tol t * rho * (1 + mach st v) ^ 4) with N in E0, E1.
  assert (Hsplit : forall i, no_f o i = e i + st_w L i * (1 - 1 / tau) * her2 L (fun b c => moment2 L f b c - moment2 L e b c) i).
  { intros i. rewrite <- Hf1. apply reg_split. }
  set (P := fun b c => moment2 L f b c - moment2 L e b c) in *.
  pose proof (c_pos t s Hs) as Hc. pose proof (cs2_c t s Hs) as Hcs2. fold st L in Hc, Hcs2.
  set (c := Rabs (st_cs L)) in *. assert (Hcc : 0 < c * c) by (apply Rmult_lt_0_compat; exact Hc).
  split; [|split; [|split]].
  - assert (M0 : mass st (no_f o) - rho = (mass st e - rho) + (1 - 1 / tau) * Ex L (fun i => her2 L P i * eprod L i [])).
    { change (mass st (no_f o)) with (mass L (no_f o)). change (mass st e) with (mass L e). rewrite (mass_ext L _ _ (fun i _ => Hsplit i)).
      transitivity (mass L e + mass L (fun i => st_w L i * (1 - 1 / tau) * her2 L P i) - rho).
      - unfold mass. rewrite sumf_plus. reflexivity.
      - rewrite mass_Ex. rewrite (Ex_ext L (fun i => her2 L P i * eprod L i []) (her2 L P)) by (intros; cbn [eprod]; ring). ring. }
    rewrite M0. eapply Rle_trans; [apply Rabs_triang|]. apply Rplus_le_compat; [exact E0|]. rewrite Rabs_mult. apply Rmult_le_compat_l; [apply Rabs_pos|].
    rewrite her2_eprod, Hcs2.
    assert (HN : near_iso L 5 (moment_tol t)).
    { apply near_iso_unscale; [assumption|]. eapply near_iso_le; [apply low_near|lia]. }
    assert (Ht : forall b d, (b < st_D L)%nat -> (d < st_D L)%nat ->
      Rabs (P b d / (2 * (c * c) * (c * c)) * (Ex L (fun i => eprod L i [b; d]) - c * c * delta b d * Ex L (fun i => eprod L i [])))
        <= moment_tol t / (c * c) * Rabs (P b d)).
    { intros b d Hb Hd'. rewrite !Ex_eprod.
      pose proof (HN [b; d] ltac:(repeat (constructor; [assumption|]); constructor) ltac:(cbn; lia)) as X2.
      pose proof (HN [] ltac:(constructor) ltac:(cbn; lia)) as X0.
      replace (IZR (wick [b; d])) with (delta b d) in X2 by (unfold wick, delta; cbn; destruct (b =? d)%nat; reflexivity).
      replace (IZR (wick [])) with 1 in X0 by reflexivity. cbn [length Nat.div2 pow] in X0, X2. rewrite Hcs2, Rmult_1_r in X2. rewrite !Rmult_1_r in X0.
      fold c in X2. rewrite Rmult_1_r in X2.
      set (A := tmom L [b; d]) in *. set (B := tmom L []) in *.
      replace (P b d / (2 * (c * c) * (c * c)) * (A - c * c * delta b d * B))
        with (P b d * (/ (2 * (c * c) * (c * c)) * ((A - delta b d * (c * c)) - c * c * delta b d * (B - 1)))) by (field; lra).
      rewrite Rabs_mult, (Rmult_comm (moment_tol t / _)). apply Rmult_le_compat_l; [apply Rabs_pos|].
      assert (Hp : 0 < 2 * (c * c) * (c * c)) by (do 2 (apply Rmult_lt_0_compat; [|exact Hcc]); lra).
      rewrite Rabs_mult, (Rabs_right (/ _)) by (left; apply Rinv_0_lt_compat; exact Hp).
      apply Rmult_le_reg_l with (2 * (c * c) * (c * c)); [exact Hp|]. rewrite <- Rmult_assoc, Rinv_r, Rmult_1_l by lra.
      replace (2 * (c * c) * (c * c) * (moment_tol t / (c * c))) with (moment_tol t * (c * c) + c * c * 1 * moment_tol t) by (field; lra).
      eapply Rle_trans; [apply Rabs_triang|]. rewrite Rabs_Ropp. apply Rplus_le_compat; [exact X2|].
      rewrite Rabs_mult. apply Rmult_le_compat; try apply Rabs_pos; [|exact X0].
      rewrite Rabs_mult, (Rabs_right (c * c)) by lra. apply Rmult_le_compat_l; [lra|].
      unfold delta. destruct (b =? d)%nat; rewrite ?Rabs_R0, ?Rabs_R1; lra. }
    assert (EQ : sumf (st_D st) (fun b => sumf (st_D st) (fun d => Rabs (moment2 st f b d - moment2 st feq b d)))
      = s * s * sumf (st_D L) (fun b => sumf (st_D L) (fun d => Rabs (P b d)))).
    { rewrite <- sumf_scal. apply sumf_ext. intros b Hb. rewrite <- sumf_scal. apply sumf_ext. intros d Hd'.
      rewrite <- (moment2_ext st _ _ b d Hee). rewrite !(moment2_unscale st s Hs). fold L. unfold P.
      rewrite <- Rmult_minus_distr_l, Rabs_mult. f_equal. apply Rabs_right. nra. }
    rewrite EQ. replace (st_cs2 st) with (s * s * (c * c)) by (rewrite <- Hcs2; unfold L; cbn [unscale st_cs2]; field; assumption).
    replace (moment_tol t * (s * s * sumf (st_D L) (fun b => sumf (st_D L) (fun d => Rabs (P b d)))) / (s * s * (c * c)))
      with (moment_tol t / (c * c) * sumf (st_D L) (fun b => sumf (st_D L) (fun d => Rabs (P b d)))) by (field; split; [lra|assumption]).
    rewrite <- sumf_scal. eapply Rle_trans; [apply sumf_abs|]. apply sumf_le. intros b Hb. rewrite <- sumf_scal.
    eapply Rle_trans; [apply sumf_abs|]. apply sumf_le. intros d Hd'. apply Ht; assumption.
  - intros a Ha.
    assert (M1 : momentum st (no_f o) a - momentum st f a = momentum st e a - rho * v a).
    { replace (rho * v a) with (momentum st f a) by (unfold v; field; assumption). f_equal.
      rewrite !(momentum_unscale st s Hs). fold L. f_equal. unfold momentum at 1.
      rewrite (sumf_ext _ _ (fun i => e i * st_e L i a + st_w L i * (1 - 1 / tau) * her2 L P i * st_e L i a)) by (intros; rewrite Hsplit; ring).
      rewrite sumf_plus.
      change (momentum L e a + momentum L (fun i => st_w L i * (1 - 1 / tau) * her2 L P i) a = momentum L e a).
      rewrite momentum_Ex. rewrite (Ex_ext L _ (fun i => her2 L P i * eprod L i [a])) by (intros; cbn [eprod]; ring).
      rewrite her2_eprod, (sumf_zero (st_D L)); [ring|]. intros b Hb. apply sumf_zero. intros d Hd'.
      pose proof (odd_L t s Hs [b; d; a]) as O3. pose proof (odd_L t s Hs [a]) as O1. fold st L in O3, O1.
      rewrite O3, O1 by (try reflexivity; repeat (constructor; [assumption|]); constructor). ring. }
    rewrite M1. apply (E1 a Ha).
  - exact Hrho.
  - intros a Ha. rewrite Hu. change (gd_scaling gd) with s. pose proof (node_vel t s Hs f Hr0 a Ha) as Ev. fold st L rho in Ev. rewrite Ev.
    change (node_velocity st f) with v. field. assumption.
Qed.
