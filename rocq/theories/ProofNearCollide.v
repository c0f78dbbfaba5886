(** Equilibria and collisions on every stencil, up to the tolerance of the stencil. *)
From Verif Require Import Prelude ModelStencils SpecStencils SpecCollision BigSum ProofStencils ProofStencilMoments ProofWick
  ModelConfigNames ModelEquilibria ModelCollision SpecSetup ProofEquilibria ProofQuartic ProofEqMoments ProofCollideNode ProofForces ProofFixed
  ProofCompressible SpecNear ProofNear ProofNearEq.
Local Open Scope R_scope.

Lemma near_min t s : near_iso (stencil_of t s) (Nat.min 7 (high_order t)) (high_tol t).
Proof. eapply near_iso_le; [apply high_near|lia]. Qed.
Lemma low_min t s : near_iso (stencil_of t s) (Nat.min 7 (moment_order t)) (moment_tol t).
Proof. eapply near_iso_le; [apply low_near|lia]. Qed.
Lemma tol_pos t : 0 <= moment_tol t.
Proof. eapply tol_nonneg. apply (low_near t 1). Qed.
Lemma high_tol_pos t : 0 <= high_tol t.
Proof. eapply tol_nonneg. apply (high_near t 1). Qed.
Lemma mach_nonneg t s v : 0 <= mach (stencil_of t s) v.
Proof.
  unfold mach. apply Rmult_le_pos; [apply sumf_nonneg; intros; apply Rabs_pos|].
  destruct (Req_dec (Rabs (st_cs (stencil_of t s))) 0) as [->|H]; [rewrite Rinv_0; lra|].
  left. apply Rinv_0_lt_compat. pose proof (Rabs_pos (st_cs (stencil_of t s))). lra.
Qed.

(** ** Equilibria *)
Section Eq.
  Variables (cfg : collision_config) (t : StencilType) (s rho : R) (v : nat -> R) (T : R) (f : nat -> R).
  Hypothesis Hs : s <> 0.
  Let st := stencil_of t s.
  Let L := unscale st s.
  Let u := fun a => v a / s.
  Let m := mach st v.
  Let c := Rabs (st_cs st).
  Let u2 := dot (st_D st) v v.

  Lemma uuL : uu_term L u = - u2 / (2 * st_cs2 st).
  Proof.
    unfold uu_term, u2, dot. change (st_D L) with (st_D st). unfold Rdiv. rewrite <- sumf_opp, <- sumf_scal_r.
    apply sumf_ext. intros a _. unfold u, L. cbn [unscale st_cs2]. 
    pose proof (cs2_unscaled_neq0 t s Hs) as H. fold st in H. cbn [unscale st_cs2] in H.
    assert (st_cs2 st <> 0) by (intros E; apply H; rewrite E; unfold Rdiv; ring). field. split; assumption.
  Qed.
  Lemma cs2_ne : st_cs2 st <> 0.
  Proof.
    pose proof (cs2_unscaled_neq0 t s Hs) as H. fold st in H. cbn [unscale st_cs2] in H.
    intros E; apply H; rewrite E; unfold Rdiv; ring.
  Qed.
  Lemma uu_m : Rabs (uu_term L u) <= m * m / 2.
  Proof.
    pose proof (uu_bound L (Rabs (st_cs L)) (c_pos t s Hs) (cs2_c t s Hs) u) as H.
    unfold m, st. rewrite <- (mach_L t s Hs v). exact H.
  Qed.

  Section Low.
    Hypothesis H5 : (5 <= moment_order t)%nat.
    Let n5 : (5 <= Nat.min 7 (moment_order t))%nat.
    Proof. lia. Qed.
    Let n7 : (Nat.min 7 (moment_order t) <= 7)%nat.
    Proof. lia. Qed.

    (** A second-order equilibrium with coefficients A, B, C. *)
    Lemma low_poly r A A' B C : Rabs A <= A' -> (forall i, (i < st_Q L)%nat -> f i = st_w L i * r * poly2 L u A B C i) ->
      let N := moment_tol t * Rabs r * (A' + Rabs B * m + Rabs C * (m * m)) in
      Rabs (mass st f - r * (A + C * u2 / st_cs2 st)) <= N /\
      (forall a, (a < st_D st)%nat -> Rabs (momentum st f a - r * B * v a) <= N * c) /\
      (forall a b, (a < st_D st)%nat -> (b < st_D st)%nat ->
         Rabs (moment2 st f a b - r * (A * st_cs2 st * delta a b + C * (u2 * delta a b + 2 * v a * v b))) <= N * c ^ 2) /\
      (forall a b d, (a < st_D st)%nat -> (b < st_D st)%nat -> (d < st_D st)%nat ->
         Rabs (moment3 st f a b d - r * B * st_cs2 st * (v a * delta b d + v b * delta a d + v d * delta a b)) <= N * c ^ 3).
    Proof.
      intros HA Hf N. pose proof (low_min t s) as Hl. repeat split; intros.
      - apply (near_poly_mass t s Hs _ _ n7 Hl v f r A A' B C HA Hf). lia.
      - apply (near_poly_momentum t s Hs _ _ n7 Hl v f r A A' B C HA Hf); assumption || lia.
      - apply (near_poly_moment2 t s Hs _ _ n7 Hl v f r A A' B C HA Hf); assumption || lia.
      - apply (near_poly_moment3 t s Hs _ _ n7 Hl v f r A A' B C HA Hf); assumption || lia.
    Qed.

    Lemma near_bgk : equilibrium_populations BGKEquilibrium cfg st s rho v T f ->
      let B := moment_tol t * Rabs rho * (1 + m) ^ 2 in
      Rabs (mass st f - rho) <= B /\
      (forall a, (a < st_D st)%nat -> Rabs (momentum st f a - rho * v a) <= B * c) /\
      (forall a b, (a < st_D st)%nat -> (b < st_D st)%nat ->
         Rabs (moment2 st f a b - rho * (st_cs2 st * delta a b + v a * v b)) <= B * c ^ 2) /\
      (forall a b d, (a < st_D st)%nat -> (b < st_D st)%nat -> (d < st_D st)%nat ->
         Rabs (moment3 st f a b d - rho * st_cs2 st * (v a * delta b d + v b * delta a d + v d * delta a b)) <= B * c ^ 3).
    Proof.
      intros [g [Hg Hfg]] B. cbn [eq_calc] in Hg. fold L in Hg. injection Hg as <-.
      assert (E : forall i, (i < st_Q L)%nat -> f i = st_w L i * rho * poly2 L u (1 + uu_term L u) 1 (1/2) i).
      { intros i Hi. rewrite Hfg by assumption. rewrite <- (bgk_poly L rho u). apply bgk_calc_generic; assumption. }
      assert (HA : Rabs (1 + uu_term L u) <= 1 + m * m / 2).
      { eapply Rle_trans; [apply Rabs_triang|]. rewrite Rabs_R1. pose proof uu_m. lra. }
      destruct (low_poly rho _ _ 1 (1/2) HA E) as (P0 & P1 & P2 & P3). rewrite uuL in P0, P2.
      pose proof cs2_ne as Hc. pose proof (mach_nonneg t s v) as Hm. fold st m in Hm.
      assert (HB : moment_tol t * Rabs rho * (1 + m * m / 2 + Rabs 1 * m + Rabs (1/2) * (m * m)) <= B).
      { unfold B. rewrite Rabs_R1, (Rabs_right (1/2)) by lra. apply Rmult_le_compat_l; [|nra].
        apply Rmult_le_pos; [apply tol_pos|apply Rabs_pos]. }
      assert (Hcp : forall k, 0 <= c ^ k) by (intros; apply pow_le, Rabs_pos).
      repeat split; intros.
      - eapply Rle_trans; [|exact HB]. eapply Rle_trans; [|exact P0]. right. f_equal. field. assumption.
      - eapply Rle_trans; [|apply Rmult_le_compat_r; [apply Rabs_pos|exact HB]]. eapply Rle_trans; [|apply (P1 a H)]. right. f_equal. ring.
      - eapply Rle_trans; [|apply Rmult_le_compat_r; [apply Hcp|exact HB]]. eapply Rle_trans; [|apply (P2 a b H H0)]. right. f_equal. field. assumption.
      - eapply Rle_trans; [|apply Rmult_le_compat_r; [apply Hcp|exact HB]]. eapply Rle_trans; [|apply (P3 a b d H H0 H1)]. right. f_equal. ring.
    Qed.

    Lemma near_inc : equilibrium_populations IncompressibleEquilibrium cfg st s rho v T f ->
      let B := moment_tol t * (Rabs rho + m + m ^ 2) in
      Rabs (mass st f - rho) <= B /\
      (forall a, (a < st_D st)%nat -> Rabs (momentum st f a - v a) <= B * c) /\
      (forall a b, (a < st_D st)%nat -> (b < st_D st)%nat ->
         Rabs (moment2 st f a b - (rho * st_cs2 st * delta a b + v a * v b)) <= B * c ^ 2).
    Proof.
      intros [g [Hg Hfg]] B. cbn [eq_calc] in Hg. fold L in Hg. injection Hg as <-.
      assert (E : forall i, (i < st_Q L)%nat -> f i = st_w L i * 1 * poly2 L u (rho + uu_term L u) 1 (1/2) i).
      { intros i Hi. rewrite Hfg by assumption. apply (inc_poly L rho u). }
      assert (HA : Rabs (rho + uu_term L u) <= Rabs rho + m * m / 2).
      { eapply Rle_trans; [apply Rabs_triang|]. pose proof uu_m. lra. }
      destruct (low_poly 1 _ _ 1 (1/2) HA E) as (P0 & P1 & P2 & _). rewrite uuL in P0, P2.
      pose proof cs2_ne as Hc.
      assert (HB : moment_tol t * Rabs 1 * (Rabs rho + m * m / 2 + Rabs 1 * m + Rabs (1/2) * (m * m)) = B).
      { unfold B. rewrite Rabs_R1, (Rabs_right (1/2)) by lra. field. }
      rewrite HB in P0, P1, P2. repeat split; intros.
      - eapply Rle_trans; [|exact P0]. right. f_equal. field. assumption.
      - eapply Rle_trans; [|apply (P1 a H)]. right. f_equal. ring.
      - eapply Rle_trans; [|apply (P2 a b H H0)]. right. f_equal. field. assumption.
    Qed.

    Lemma near_ss : cc_equilibrium cfg = STEADYSTATE_EQUILIBRIUM -> equilibrium_populations SteadyStateEquilibrium cfg st s rho v T f ->
      let B := moment_tol t * Rabs rho * (1 + m + m ^ 2 / Rabs (cc_ss_gamma cfg)) in
      Rabs (mass st f - rho) <= B /\
      (forall a, (a < st_D st)%nat -> Rabs (momentum st f a - rho * v a) <= B * c) /\
      (forall a b, (a < st_D st)%nat -> (b < st_D st)%nat ->
         Rabs (moment2 st f a b - rho * (st_cs2 st * delta a b + v a * v b / cc_ss_gamma cfg)) <= B * c ^ 2).
    Proof.
      intros Hcfg [g [Hg Hfg]] B. rewrite Hcfg in Hg. cbn [eq_calc] in Hg. fold L in Hg. injection Hg as <-.
      set (ga := cc_ss_gamma cfg) in *.
      assert (E : forall i, (i < st_Q L)%nat -> f i = st_w L i * rho * poly2 L u (1 + uu_term L u / ga) 1 (1/2 / ga) i).
      { intros i Hi. rewrite Hfg by assumption. apply (ss_poly L rho u). }
      assert (HA : Rabs (1 + uu_term L u / ga) <= 1 + m * m / 2 * / Rabs ga).
      { eapply Rle_trans; [apply Rabs_triang|]. rewrite Rabs_R1. unfold Rdiv at 1. rewrite Rabs_mult, Rabs_inv.
        apply Rplus_le_compat_l. apply Rmult_le_compat_r; [|apply uu_m].
        destruct (Req_dec (Rabs ga) 0) as [->|Hg0]; [rewrite Rinv_0; lra|]. left. apply Rinv_0_lt_compat. pose proof (Rabs_pos ga). lra. }
      destruct (low_poly rho _ _ 1 (1/2 / ga) HA E) as (P0 & P1 & P2 & _). rewrite uuL in P0, P2.
      pose proof cs2_ne as Hc.
      assert (HB : moment_tol t * Rabs rho * (1 + m * m / 2 * / Rabs ga + Rabs 1 * m + Rabs (1/2 / ga) * (m * m)) = B).
      { unfold B, Rdiv. rewrite Rabs_mult, Rabs_inv. fold (1 / 2). rewrite Rabs_R1, (Rabs_right (1/2)) by lra. generalize (/ Rabs ga). intros x. field. }
      rewrite HB in P0, P1, P2. repeat split; intros.
      - eapply Rle_trans; [|exact P0]. right. f_equal. unfold Rdiv. generalize (/ ga). intros x. field. assumption.
      - eapply Rle_trans; [|apply (P1 a H)]. right. f_equal. ring.
      - eapply Rle_trans; [|apply (P2 a b H H0)]. right. f_equal. unfold Rdiv. generalize (/ ga). intros x. field. assumption.
    Qed.
  End Low.

  Let M := expansion_size st v T.
  Lemma near_quartic : equilibrium_populations QuarticEquilibrium cfg st s rho v T f ->
    ((5 <= moment_order t)%nat -> Rabs (mass st f - rho) <= moment_tol t * Rabs rho * M /\
       forall a, (a < st_D st)%nat -> Rabs (momentum st f a - rho * v a) <= moment_tol t * Rabs rho * M * c) /\
    ((6 <= high_order t)%nat -> forall a b, (a < st_D st)%nat -> (b < st_D st)%nat ->
       Rabs (moment2 st f a b - rho * (T * st_cs2 st * delta a b + v a * v b)) <= high_tol t * Rabs rho * M * c ^ 2) /\
    ((7 <= high_order t)%nat -> forall a b d, (a < st_D st)%nat -> (b < st_D st)%nat -> (d < st_D st)%nat ->
       Rabs (moment3 st f a b d - rho * (v a * v b * v d + T * st_cs2 st * (v a * delta b d + v b * delta a d + v d * delta a b)))
         <= high_tol t * Rabs rho * M * c ^ 3).
  Proof.
    intros [g [Hg Hfg]]. cbn [eq_calc] in Hg. fold L in Hg. injection Hg as <-.
    pose proof (low_min t s) as Hl. pose proof (near_min t s) as Hh.
    pose proof (Nat.le_min_l 7 (moment_order t)) as Ll. pose proof (Nat.le_min_l 7 (high_order t)) as Lh.
    repeat split; intros.
    - apply (near_q_mass t s Hs _ _ Ll Hl v f rho T Hfg). lia.
    - apply (near_q_momentum t s Hs _ _ Ll Hl v f rho T Hfg); assumption || lia.
    - apply (near_q_moment2 t s Hs _ _ Lh Hh v f rho T Hfg); assumption || lia.
    - apply (near_q_moment3 t s Hs _ _ Lh Hh v f rho T Hfg); assumption || lia.
  Qed.
End Eq.

(** ** Collisions *)
Lemma uu_ext L u u' : (forall a, (a < st_D L)%nat -> u a = u' a) -> uu_term L u = uu_term L u'.
Proof. intros H. apply sumf_ext. intros a Ha. rewrite (H a Ha). reflexivity. Qed.
Lemma ue_ext L u u' i : (forall a, (a < st_D L)%nat -> u a = u' a) -> ue_term L u i = ue_term L u' i.
Proof. intros H. apply sumf_ext. intros a Ha. rewrite (H a Ha). reflexivity. Qed.
Lemma quartic_ext L rho u u' T i : st_D L = 2%nat \/ st_D L = 3%nat -> (forall a, (a < st_D L)%nat -> u a = u' a) ->
  QuarticEquilibrium_calc L rho u T i = QuarticEquilibrium_calc L rho u' T i.
Proof.
  intros HD H. unfold QuarticEquilibrium_calc. rewrite (uu_ext L u u' H), (ue_ext L u u' i H).
  rewrite (H 0%nat), (H 1%nat) by lia. destruct HD as [E|E]; rewrite E; [reflexivity|]. rewrite (H 2%nat) by lia. reflexivity.
Qed.

Section Node.
  Variables (t : StencilType) (s : R).
  Hypothesis Hs : s <> 0.
  Let st := stencil_of t s.
  Let L := unscale st s.
  Variable f : nat -> R.
  Let rho := sumf (st_Q L) f.
  Hypothesis Hr : rho <> 0.
  Definition node_velocity (x : stencil) (h : nat -> R) : nat -> R := fun a => momentum x h a / mass x h.
  Let v := node_velocity st f.

  Lemma node_vel a : (a < st_D L)%nat -> calculateVelocity L f rho a = v a / s.
  Proof.
    intros Ha. unfold v, node_velocity. rewrite (momentum_unscale st s Hs). fold L. change (mass st f) with rho.
    pose proof (vel_momentum t s f rho a Hs Hr Ha) as E. fold st L in E. rewrite <- E. field. split; assumption.
  Qed.
  Lemma node_eqpop cfg q ga T feq : q = BGKEquilibrium \/ q = QuarticEquilibrium ->
    eq_calc q L ga rho (calculateVelocity L f rho) T = Ok feq -> equilibrium_populations q cfg st s rho v T feq.
  Proof.
    intros Hq He. destruct Hq as [-> | ->]; cbn [eq_calc] in He; injection He as <-; eexists; (split; [cbn [eq_calc]; reflexivity|]); intros i Hi.
    - fold L. rewrite !(bgk_calc_generic t s) by assumption. fold st L. unfold BGKEquilibrium_generic.
      rewrite (uu_ext L _ _ node_vel), (ue_ext L _ _ i node_vel). reflexivity.
    - apply quartic_ext; [apply st_dim|]. apply node_vel.
  Qed.
End Node.

(** Second and fourth order, temperature one. *)
Lemma near_carrying q cfg t s rho v e : s <> 0 -> (5 <= moment_order t)%nat -> 0 < rho -> q = BGKEquilibrium \/ q = QuarticEquilibrium ->
  equilibrium_populations q cfg (stencil_of t s) s rho v 1 e ->
  let st := stencil_of t s in let N := moment_tol t * rho * (1 + mach st v) ^ 4 in
  Rabs (mass st e - rho) <= N /\ forall a, (a < st_D st)%nat -> Rabs (momentum st e a - rho * v a) <= N * Rabs (st_cs st).
Proof.
  intros Hs H5 Hrp Hq Heq st N. fold st in Heq. assert (Hm : 0 <= mach st v) by apply mach_nonneg.
  destruct Hq as [-> | ->].
    - destruct (near_bgk cfg t s rho v 1 e Hs H5 Heq) as (P0 & P1 & _). fold st in P0, P1. rewrite (Rabs_right rho) in P0, P1 by lra.
      assert (HN : moment_tol t * rho * (1 + mach st v) ^ 2 <= N).
      { unfold N. apply Rmult_le_compat_l; [apply Rmult_le_pos; [apply tol_pos|lra]|].
        assert (1 <= (1 + mach st v) ^ 2) by nra. replace ((1 + mach st v) ^ 4) with ((1 + mach st v) ^ 2 * (1 + mach st v) ^ 2) by ring. nra. }
      split; [lra|]. intros a Ha. eapply Rle_trans; [apply (P1 a Ha)|]. apply Rmult_le_compat_r; [apply Rabs_pos|exact HN].
    - destruct (near_quartic cfg t s rho v 1 e Hs Heq) as (P & _). destruct (P H5) as [P0 P1]. fold st in P0, P1.
      rewrite (Rabs_right rho) in P0, P1 by lra. unfold expansion_size in P0, P1.
      replace (1 + mach st v + INR (st_D st) * Rabs (1 - 1)) with (1 + mach st v) in P0, P1.
      2:{ replace (1 - 1) with 0 by ring. rewrite Rabs_R0. ring. }
      split; [exact P0|exact P1].
Qed.

Lemma bgk_near q cfg t s nu dt f u o : (5 <= moment_order t)%nat -> valid_setup cfg s nu dt ->
  cc_equilibrium cfg <> STEADYSTATE_EQUILIBRIUM -> q = BGKEquilibrium \/ q = QuarticEquilibrium ->
  collide_node BGKCollision q (make_genData cfg None (stencil_of t s) s nu dt) false f u = Ok o ->
  let st := stencil_of t s in
  let v := fun a => momentum st f a / mass st f in
  let B := moment_tol t * mass st f * (1 + mach st v) ^ 4 / (nu / (dt * st_cs2 st) + 1/2) in
  Rabs (mass st (no_f o) - mass st f) <= B /\
  (forall a, (a < st_D st)%nat -> Rabs (momentum st (no_f o) a - momentum st f a) <= B * Rabs (st_cs st)) /\
  no_rho o = mass st f /\ (forall a, (a < st_D st)%nat -> no_u o a = v a).
Proof.
  intros H5 Hv Hss Hq H st v B. assert (Hs : s <> 0) by (destruct Hv; lra).
  pose proof (tau_gd cfg None (stencil_of t s) s nu dt Hss) as Htg. pose proof (tau_pos cfg None t s nu dt Hv) as Htp.
  set (gd := make_genData cfg None (stencil_of t s) s nu dt) in *. fold st in Htg.
  destruct (node_inv _ q gd f u o eq_refl H) as [Hd [Hrho [Hu [feq Hrel]]]].
  change (gd_L gd) with (unscale st s) in *. set (L := unscale st s) in *. set (rho := sumf (st_Q L) f) in *.
  assert (Hr0 : rho <> 0) by (apply dens_neq0; assumption).
  assert (Hrp : 0 < rho) by (eapply Rlt_le_trans; [|exact Hd]; apply Rdiv_lt_0_compat; [lra|apply pow_lt; lra]).
  unfold relax in Hrel. cbv zeta in Hrel. change (gd_L gd) with L in Hrel.
  destruct (eq_calc q L (gd_gamma_ss gd) rho (calculateVelocity L f rho) 1) as [e| |] eqn:He; try discriminate.
  cbn [obind] in Hrel. assert (Hf1 : relax_BGK (gd_tau gd) f e = no_f o) by congruence.
  pose proof (node_eqpop t s Hs f Hr0 cfg q _ 1 e Hq He) as Heq. fold st L rho in Heq. change (node_velocity st f) with v in Heq.
  set (tau := nu / (dt * st_cs2 st) + 1 / 2) in *. assert (Ht : 0 < tau) by lra.
  assert (Hm : 0 <= mach st v) by apply mach_nonneg.
  set (N := moment_tol t * rho * (1 + mach st v) ^ 4).
  pose proof (near_carrying q cfg t s rho v e Hs H5 Hrp Hq Heq) as HE. fold st N in HE.
  destruct HE as [E0 E1].
  assert (HB : B = / tau * N) by (unfold B, N; change (mass st f) with rho; unfold Rdiv; ring).
  assert (Hit : Rabs (/ tau) = / tau) by (apply Rabs_right; left; apply Rinv_0_lt_compat; assumption).
  assert (Ef : forall i, no_f o i = f i - / tau * (f i - e i)).
  { intros i. rewrite <- Hf1, Htg. unfold relax_BGK, Rdiv. ring. }
  assert (Hip : 0 <= / tau) by (left; apply Rinv_0_lt_compat; assumption).
  assert (M0 : mass st (no_f o) - mass st f = / tau * (mass st e - rho)).
  { change rho with (mass st f). unfold mass. rewrite (sumf_ext _ _ _ (fun i _ => Ef i)), sumf_minus, sumf_scal, sumf_minus. ring. }
  assert (M1 : forall a, (a < st_D st)%nat -> momentum st (no_f o) a - momentum st f a = / tau * (momentum st e a - rho * v a)).
  { intros a Ha. replace (rho * v a) with (momentum st f a) by (unfold v; change (mass st f) with rho; field; assumption).
    unfold momentum. rewrite (sumf_ext (st_Q st) (fun i => no_f o i * st_e st i a) (fun i => f i * st_e st i a - / tau * (f i * st_e st i a - e i * st_e st i a)))
      by (intros i _; rewrite Ef; ring).
    rewrite sumf_minus, sumf_scal, sumf_minus. ring. }
  split; [|split; [|split]].
  - rewrite M0, Rabs_mult, Hit, HB. apply Rmult_le_compat_l; assumption.
  - intros a Ha. rewrite (M1 a Ha), Rabs_mult, Hit, HB, Rmult_assoc. apply Rmult_le_compat_l; [assumption|apply (E1 a Ha)].
  - exact Hrho.
  - intros a Ha. rewrite Hu. change (gd_scaling gd) with s. pose proof (node_vel t s Hs f Hr0 a Ha) as Ev. fold st L rho in Ev. rewrite Ev.
    change (node_velocity st f) with v. field. assumption.
Qed.

(** ** The collision with two populations *)
Section Star.
  Variables (t : StencilType) (s : R).
  Hypothesis Hs : s <> 0.
  Let st := stencil_of t s.
  Let L := unscale st s.
  Let D := st_D L.
  Let c := Rabs (st_cs L).
  Let L0 := exact D c.

  Lemma odd_L l : Forall (fun a => (a < D)%nat) l -> Nat.odd (length l) = true -> Ex L (fun i => eprod L i l) = 0.
  Proof.
    intros H Ho. rewrite Ex_eprod. unfold L. rewrite tmom_unscale by assumption. unfold st. rewrite tmom_odd by assumption. unfold Rdiv. ring.
  Qed.
  Ltac fa := repeat (constructor; [assumption|]); constructor.

  Variable Q3 : nat -> nat -> nat -> R.
  Lemma star_mass_any : mass L (calculateFStar L Q3) = 0.
  Proof.
    rewrite (mass_ext L _ _ (fun i _ => fstar_split L Q3 i)), mass_Ex.
    replace (Ex L (star_poly L Q3)) with 0; [ring|]. symmetry.
    transitivity (Ex L (fun i => star_poly L Q3 i * eprod L i [])). { apply Ex_ext. intros. cbn [eprod]. ring. }
    rewrite Ex_star. apply sumf_zero. intros a Ha. apply sumf_zero. intros b Hb. apply sumf_zero. intros d Hd.
    rewrite (odd_L [a; b; d]), (odd_L [d]) by (try reflexivity; fa). ring.
  Qed.
  Lemma star_moment2_any x y : (x < D)%nat -> (y < D)%nat -> moment2 L (calculateFStar L Q3) x y = 0.
  Proof.
    intros Hx Hy. rewrite (moment2_ext L _ _ x y (fun i _ => fstar_split L Q3 i)), moment2_Ex.
    replace (Ex L (fun i => star_poly L Q3 i * st_e L i x * st_e L i y)) with 0; [ring|]. symmetry.
    transitivity (Ex L (fun i => star_poly L Q3 i * eprod L i [x; y])). { apply Ex_ext. intros. cbn [eprod]. ring. }
    rewrite Ex_star. apply sumf_zero. intros a Ha. apply sumf_zero. intros b Hb. apply sumf_zero. intros d Hd.
    rewrite (odd_L [a; b; d; x; y]), (odd_L [d; x; y]) by (try reflexivity; fa). ring.
  Qed.
  Lemma gstar_mass_any T flux : mass L (calculateGStar L T flux) = 0.
  Proof.
    unfold mass, calculateGStar. fold D. rewrite sumf_swap. apply sumf_zero. intros a Ha.
    transitivity (flux a / T * Ex L (fun i => eprod L i [a])).
    - unfold Ex. rewrite <- sumf_scal. apply sumf_ext. intros i _. cbn [eprod]. unfold Rdiv. ring.
    - rewrite (odd_L [a]) by (try reflexivity; fa). ring.
  Qed.

  Hypothesis Qsym12 : forall a b d, Q3 a b d = Q3 b a d.
  Hypothesis Qsym23 : forall a b d, Q3 a b d = Q3 a d b.
  Hypothesis H4 : (4 <= high_order t)%nat.
  Lemma star_momentum_near x : (x < D)%nat ->
    Rabs (momentum L (calculateFStar L Q3) x) <=
    high_tol t * (2 / 3 * sumf D (fun a => sumf D (fun b => sumf D (fun d => Rabs (Q3 a b d))))) / (c * c).
  Proof.
    intros Hx. pose proof (c_pos t s Hs) as Hc. pose proof (cs2_c t s Hs) as Hcs2. fold st L in Hc, Hcs2. fold c in Hc, Hcs2.
    pose proof (high_tol_pos t) as Htp. assert (Hcc : 0 < c * c) by (apply Rmult_lt_0_compat; exact Hc).
    rewrite (momentum_ext L _ _ x (fun i _ => fstar_split L Q3 i)), momentum_Ex, Rmult_1_l.
    assert (H0 : Ex L0 (fun i => star_poly L0 Q3 i * st_e L0 i x) = 0).
    { apply (star_1 L0 7 (exact_isotropic D c)); try assumption; try lia. change (st_cs2 L0) with (c * c). lra. }
    assert (E : forall K, Ex K (fun i => star_poly K Q3 i * st_e K i x) = Ex K (fun i => star_poly K Q3 i * eprod K i [x])).
    { intros K. apply Ex_ext. intros. cbn [eprod]. ring. }
    rewrite E in H0 |- *. rewrite Ex_star in H0 |- *.
    change (st_D L0) with D in H0. change (st_cs2 L0) with (c * c) in H0. fold D. rewrite Hcs2.
    match goal with |- Rabs ?X <= _ => replace X with (X - 0) by ring end. rewrite <- H0.
    rewrite <- sumf_minus.
    assert (HN : near_iso L 4 (high_tol t)).
    { apply near_iso_unscale; [assumption|]. eapply near_iso_le; [apply high_near|lia]. }
    assert (Hd : forall l, Forall (fun a => (a < D)%nat) l -> (length l <= 4)%nat ->
      Rabs (Ex L (fun i => eprod L i l) - Ex L0 (fun i => eprod L0 i l)) <= high_tol t * c ^ length l).
    { intros l Hl Hn. rewrite !Ex_eprod. unfold L0. rewrite (exact_isotropic D c l Hl) by lia.
      specialize (HN l Hl Hn). rewrite Hcs2 in HN. exact HN. }
    set (k := high_tol t * (2 / 3) / (c * c)).
    assert (Hterm : forall a b d, (a < D)%nat -> (b < D)%nat -> (d < D)%nat ->
      Rabs (Q3 a b d / (6 * (c * c) * (c * c) * (c * c)) * (Ex L (fun i => eprod L i [a; b; d; x]) - 3 * (c * c) * delta a b * Ex L (fun i => eprod L i [d; x]))
          - Q3 a b d / (6 * (c * c) * (c * c) * (c * c)) * (Ex L0 (fun i => eprod L0 i [a; b; d; x]) - 3 * (c * c) * delta a b * Ex L0 (fun i => eprod L0 i [d; x])))
      <= k * Rabs (Q3 a b d)).
    { intros a b d Ha Hb Hd'.
      pose proof (Hd [a; b; d; x] ltac:(fa) ltac:(cbn; lia)) as X4. pose proof (Hd [d; x] ltac:(fa) ltac:(cbn; lia)) as X2.
      set (A := Ex L (fun i => eprod L i [a; b; d; x])) in *. set (A0 := Ex L0 (fun i => eprod L0 i [a; b; d; x])) in *.
      set (B := Ex L (fun i => eprod L i [d; x])) in *. set (B0 := Ex L0 (fun i => eprod L0 i [d; x])) in *.
      cbn [length] in X4, X2. set (q := Q3 a b d).
      replace (q / (6 * (c * c) * (c * c) * (c * c)) * (A - 3 * (c * c) * delta a b * B) - q / (6 * (c * c) * (c * c) * (c * c)) * (A0 - 3 * (c * c) * delta a b * B0))
        with (q * (/ (6 * (c * c) * (c * c) * (c * c)) * ((A - A0) - 3 * (c * c) * delta a b * (B - B0)))) by (field; lra).
      rewrite Rabs_mult, (Rmult_comm k). apply Rmult_le_compat_l; [apply Rabs_pos|].
      assert (Hp : 0 < 6 * (c * c) * (c * c) * (c * c)) by (do 3 (apply Rmult_lt_0_compat; [|exact Hcc]); lra).
      rewrite Rabs_mult, (Rabs_right (/ _)) by (left; apply Rinv_0_lt_compat; exact Hp).
      apply Rmult_le_reg_l with (6 * (c * c) * (c * c) * (c * c)); [exact Hp|]. rewrite <- Rmult_assoc, Rinv_r, Rmult_1_l by lra.
      replace (6 * (c * c) * (c * c) * (c * c) * k) with (high_tol t * c ^ 4 + 3 * (c * c) * (high_tol t * c ^ 2)) by (unfold k; field; lra).
      eapply Rle_trans; [apply Rabs_triang|]. rewrite Rabs_Ropp. apply Rplus_le_compat; [exact X4|].
      rewrite !Rabs_mult. rewrite (Rabs_right 3), (Rabs_right c) by lra.
      replace (3 * (c * c) * (high_tol t * c ^ 2)) with (3 * (c * c) * 1 * (high_tol t * c ^ 2)) by ring.
      assert (Hdl : Rabs (delta a b) <= 1) by (unfold delta; destruct (a =? b)%nat; rewrite ?Rabs_R0, ?Rabs_R1; lra).
      apply Rmult_le_compat; [|apply Rabs_pos| |exact X2].
      - apply Rmult_le_pos; [nra|apply Rabs_pos].
      - apply Rmult_le_compat_l; [nra|exact Hdl]. }
    replace (high_tol t * (2 / 3 * sumf D (fun a => sumf D (fun b => sumf D (fun d => Rabs (Q3 a b d))))) / (c * c))
      with (k * sumf D (fun a => sumf D (fun b => sumf D (fun d => Rabs (Q3 a b d))))) by (unfold k; field; lra).
    rewrite <- sumf_scal. eapply Rle_trans; [apply sumf_abs|]. apply sumf_le. intros a Ha. rewrite <- sumf_minus, <- sumf_scal.
    eapply Rle_trans; [apply sumf_abs|]. apply sumf_le. intros b Hb. rewrite <- sumf_minus, <- sumf_scal.
    eapply Rle_trans; [apply sumf_abs|]. apply sumf_le. intros d Hd'. rewrite <- sumf_minus || idtac. apply Hterm; assumption.
  Qed.
End Star.

Lemma compressible_near cfg t s nu dt f g u o feq : (6 <= high_order t)%nat -> valid_setup cfg s nu dt ->
  cc_equilibrium cfg <> STEADYSTATE_EQUILIBRIUM -> cc_heat_gamma cfg <> 1 ->
  collide_node_g QuarticEquilibrium (make_genData cfg None (stencil_of t s) s nu dt) false f g u = Ok o ->
  let st := stencil_of t s in
  let m := mass st f in
  let v := fun a => momentum st f a / m in
  let T := ng_T o in
  let tau := nu / (dt * st_cs2 st) * (if cc_sutherland cfg then Rpower (T / (85/100)) (7/10) else 1) / (T * m) + 1/2 in
  let B := Rabs (1 / tau) * (high_tol t * m * expansion_size st v T) in
  equilibrium_populations QuarticEquilibrium cfg st s m v T feq ->
  Rabs (mass st (ng_f o) - m) <= B /\
  (forall a, (a < st_D st)%nat -> Rabs (momentum st (ng_f o) a - momentum st f a) <= B * Rabs (st_cs st) +
     if cc_prandtl_set cfg then Rabs (1 / tau - 1 / ((tau - 1/2) / cc_prandtl cfg + 1/2)) *
       (high_tol t * (2 / 3 * sumf (st_D st) (fun a => sumf (st_D st) (fun b => sumf (st_D st) (fun c =>
          Rabs (central3 st v (fun i => f i - feq i) a b c))))) / st_cs2 st)
     else 0) /\
  Rabs (energy2 st (ng_f o) (ng_g o) - energy2 st f g) <=
     B * st_cs2 st * (INR (st_D st) + Rabs (T * (2 / (cc_heat_gamma cfg - 1) - INR (st_D st)))) /\
  2 / (cc_heat_gamma cfg - 1) * m * st_cs2 st * T = energy2 st f g - m * dot (st_D st) v v /\
  ng_rho o = m /\ (forall a, (a < st_D st)%nat -> ng_u o a = v a).
Proof.
  intros H6 Hv Hss Hga H st m v T tau B Hfeq. assert (Hs : s <> 0) by (destruct Hv; lra).
  pose proof (tau_gd cfg None (stencil_of t s) s nu dt Hss) as Htg.
  set (gd := make_genData cfg None (stencil_of t s) s nu dt) in *. fold st in Htg.
  destruct (node_g_inv _ gd f g u o eq_refl H) as [Hd [Hrho [Hu [HT [fe [mask Hrel]]]]]].
  change (gd_L gd) with (unscale st s) in *. set (L := unscale st s) in *.
  change (sumf (st_Q L) f) with m in *.
  assert (Hr0 : m <> 0) by (apply dens_neq0; assumption).
  assert (Hrp : 0 < m) by (eapply Rlt_le_trans; [|exact Hd]; apply Rdiv_lt_0_compat; [lra|apply pow_lt; lra]).
  set (w := calculateVelocity L f m) in *. fold T in HT.
  assert (Hw : forall a, (a < st_D L)%nat -> w a = v a / s).
  { intros a Ha. pose proof (node_vel t s Hs f Hr0 a Ha) as Ev. exact Ev. }
  rewrite <- HT in Hrel. unfold relaxWithG in Hrel. cbv zeta in Hrel. change (gd_L gd) with L in Hrel. cbn [eq_calc obind] in Hrel.
  set (e := QuarticEquilibrium_calc L m w T) in *.
  assert (He : equilibrium_populations QuarticEquilibrium cfg st s m v T e) by (eapply (node_eqpop t s Hs f Hr0 cfg QuarticEquilibrium 1 T e); [right; reflexivity|reflexivity]).
  assert (Hee : forall i, (i < st_Q st)%nat -> e i = feq i).
  { intros i Hi. destruct He as [h1 [E1 F1]]. destruct Hfeq as [h2 [E2 F2]]. rewrite F1, F2 by assumption. congruence. }
  change (gd_cfg gd) with cfg in Hrel. rewrite Htg in Hrel.
  replace (nu / (dt * st_cs2 st) + 1 / 2 - 1 / 2) with (nu / (dt * st_cs2 st)) in Hrel by ring. fold tau in Hrel.
  set (geq := calculateGeqFromFeq gd T e) in *.
  set (Q3 := centeredHeatFluxTensor L w (fun p => f p - e p)) in *.
  set (fst0 := if cc_prandtl_set cfg then calculateFStar L Q3 else fun _ => 0) in Hrel.
  set (gst0 := if cc_prandtl_set cfg then calculateGStar L T (centeredMomentumFlux L w (fun p => g p - geq p)) else fun _ => 0) in Hrel.
  set (pd := 1 / tau - 1 / ((tau - 1/2) / cc_prandtl cfg + 1/2)) in *.
  assert (Hf1 : (fun p => f p - (1 / tau * (f p - e p) - pd * fst0 p)) = ng_f o) by congruence.
  assert (Hg1 : (fun p => g p - (1 / tau * (g p - geq p) - pd * gst0 p)) = ng_g o) by congruence.
  clear Hrel.
  assert (F0 : mass L fst0 = 0).
  { unfold fst0. destruct (cc_prandtl_set cfg); [|apply sumf_0]. apply (star_mass_any t s Hs). }
  assert (F2 : forall a, (a < st_D L)%nat -> moment2 L fst0 a a = 0).
  { intros a Ha. unfold fst0. destruct (cc_prandtl_set cfg); [apply (star_moment2_any t s Hs); assumption|apply sumf_zero; intros; ring]. }
  assert (G0 : mass L gst0 = 0).
  { unfold gst0. destruct (cc_prandtl_set cfg); [|apply sumf_0]. apply (gstar_mass_any t s Hs). }
  pose proof (near_min t s) as Hh. pose proof (Nat.le_min_l 7 (high_order t)) as Lh.
  assert (Hfe : forall i, (i < st_Q st)%nat -> e i = QuarticEquilibrium_calc L m (fun a => v a / s) T i).
  { intros i Hi. apply quartic_ext; [apply st_dim|assumption]. }
  pose proof (near_q_mass t s Hs _ _ Lh Hh v e m T Hfe ltac:(lia)) as P0.
  pose proof (fun a => near_q_momentum t s Hs _ _ Lh Hh v e m T Hfe a ltac:(lia)) as P1.
  pose proof (fun a b => near_q_moment2 t s Hs _ _ Lh Hh v e m T Hfe a b ltac:(lia)) as P2.
  fold st in P0, P1, P2. rewrite (Rabs_right m) in P0, P1, P2 by lra.
  set (N := high_tol t * m * expansion_size st v T) in *.
  assert (HB : B = Rabs (1 / tau) * N) by reflexivity.
  assert (Hsq : Rabs (st_cs st) ^ 2 = st_cs2 st).
  { pose proof (s2_c2 t s Hs) as A1. pose proof (cs2_st t s Hs) as A2. fold st in A1, A2. rewrite A2, A1. ring. }
  assert (Hj : forall a, (a < st_D L)%nat -> m * w a = momentum L f a) by (intros a Ha; exact (vel_momentum t s f m a Hs Hr0 Ha)).
  pose proof (temperature_energy gd f g w m (cs2_unscaled_neq0 t s Hs) Hr0 Hga eq_refl Hj) as Hte.
  change (gd_L gd) with L in Hte. rewrite <- HT in Hte. change (gd_cfg gd) with cfg in Hte.
  assert (Hst : st_cs2 st = s * s * st_cs2 L) by (unfold L; cbn [unscale st_cs2]; field; assumption).
  assert (Hvw : s * s * dot (st_D L) w w = dot (st_D st) v v).
  { unfold dot. rewrite <- sumf_scal. apply sumf_ext. intros a Ha. rewrite Hw by assumption. field. assumption. }
  assert (Hga' : cc_heat_gamma cfg - 1 <> 0) by lra.
  assert (Hen : 2 / (cc_heat_gamma cfg - 1) * m * st_cs2 st * T = energy2 st f g - m * dot (st_D st) v v).
  { rewrite (energy2_unscale st s) by assumption. fold L. rewrite Hst, <- Hvw.
    transitivity (s * s * (2 * m * (1 / (cc_heat_gamma cfg - 1)) * st_cs2 L * T)); [field; assumption|]. rewrite Hte. ring. }
  split; [|split; [|split; [|split; [exact Hen|split; [exact Hrho|]]]]].
  - assert (M0 : mass st (ng_f o) - m = 1 / tau * (mass st e - m)).
    { transitivity (mass L (ng_f o) - m); [reflexivity|]. transitivity (mass L f - 1 / tau * (mass L f - mass L e) + pd * mass L fst0 - m).
      - rewrite <- Hf1. unfold mass. rewrite <- sumf_minus, <- !sumf_scal, <- sumf_minus, <- sumf_plus. f_equal. apply sumf_ext. intros. ring.
      - rewrite F0. change (mass L f) with m. change (mass L e) with (mass st e). ring. }
    rewrite M0, Rabs_mult, HB. apply Rmult_le_compat_l; [apply Rabs_pos|exact P0].
  - intros a Ha.
    assert (M1 : momentum st (ng_f o) a - momentum st f a = 1 / tau * (momentum st e a - m * v a) + pd * momentum st fst0 a).
    { replace (m * v a) with (momentum st f a) by (unfold v; field; assumption).
      rewrite <- Hf1. unfold momentum. rewrite <- !sumf_minus, <- !sumf_scal, <- sumf_plus. apply sumf_ext. intros. ring. }
    rewrite M1. eapply Rle_trans; [apply Rabs_triang|]. rewrite !Rabs_mult. apply Rplus_le_compat.
    + rewrite HB, Rmult_assoc. apply Rmult_le_compat_l; [apply Rabs_pos|apply (P1 a Ha)].
    + unfold fst0. destruct (cc_prandtl_set cfg).
      2:{ unfold momentum. rewrite (sumf_zero (st_Q st)) by (intros; ring). rewrite Rabs_R0. lra. }
      apply Rmult_le_compat_l; [apply Rabs_pos|].
      rewrite (momentum_unscale st s Hs), Rabs_mult. fold L.
      pose proof (star_momentum_near t s Hs Q3 (heatflux_sym12 L w _) (heatflux_sym23 L w _) ltac:(lia) a Ha) as PS. fold st L in PS.
      eapply Rle_trans; [apply Rmult_le_compat_l; [apply Rabs_pos|exact PS]|]. right.
      pose proof (c_pos t s Hs) as Hcp. pose proof (cs2_c t s Hs) as Hcc. fold st L in Hcp, Hcc. rewrite <- Hcc.
      assert (EQ : sumf (st_D L) (fun a => sumf (st_D L) (fun b => sumf (st_D L) (fun c => Rabs (Q3 a b c)))) =
        sumf (st_D st) (fun a => sumf (st_D st) (fun b => sumf (st_D st) (fun c => Rabs (central3 st v (fun i => f i - feq i) a b c)))) / Rabs s ^ 3).
      { unfold Rdiv. rewrite <- sumf_scal_r. apply sumf_ext. intros x Hx. rewrite <- sumf_scal_r. apply sumf_ext. intros y Hy.
        rewrite <- sumf_scal_r. apply sumf_ext. intros z Hz. rewrite RPow_abs, <- Rabs_inv, <- Rabs_mult. f_equal.
        unfold Q3, centeredHeatFluxTensor, central3. rewrite <- sumf_scal_r. apply sumf_ext. intros i Hi. rewrite !Hw, Hee by assumption.
        unfold L. cbn [unscale st_e]. field. assumption. }
      rewrite EQ, Hst.
      replace (s * s) with (Rabs s * Rabs s) by (rewrite <- Rabs_mult; apply Rabs_right; nra).
      pose proof (cs2_unscaled_neq0 t s Hs) as Hne. fold st L in Hne. assert (Rabs s <> 0) by (apply Rabs_no_R0; assumption).
      field. split; assumption.
  - assert (M2 : energy2 st (ng_f o) (ng_g o) - energy2 st f g = 1 / tau * (energy2 st e geq - energy2 st f g)).
    { rewrite !(energy2_unscale st s) by assumption. fold L.
      transitivity (s * s * (energy2 L f g - 1 / tau * (energy2 L f g - energy2 L e geq) + pd * energy2 L fst0 gst0) - s * s * energy2 L f g).
      - f_equal. f_equal. rewrite <- Hf1, <- Hg1. unfold energy2. rewrite <- sumf_minus, <- !sumf_scal, <- sumf_minus, <- sumf_plus. apply sumf_ext. intros. ring.
      - rewrite (energy2_moments L fst0), G0, (sumf_zero (st_D L)) by assumption. ring. }
    assert (E2 : energy2 st e geq - energy2 st f g =
      sumf (st_D st) (fun a => moment2 st e a a - m * (T * st_cs2 st * delta a a + v a * v a))
      + st_cs2 st * (T * (2 / (cc_heat_gamma cfg - 1) - INR (st_D st))) * (mass st e - m)).
    { rewrite sumf_minus. rewrite (sumf_ext (st_D st) (fun a => m * (T * st_cs2 st * delta a a + v a * v a)) (fun a => m * T * st_cs2 st + m * (v a * v a)))
        by (intros; rewrite delta_refl; ring).
      rewrite sumf_plus, sumf_const, sumf_scal. fold (dot (st_D st) v v).
      replace (energy2 st f g) with (2 / (cc_heat_gamma cfg - 1) * m * st_cs2 st * T + m * dot (st_D st) v v) by (rewrite Hen; ring).
      rewrite energy2_moments.
      replace (mass st geq) with (mass st e * T * (2 / (cc_heat_gamma cfg - 1) - INR (st_D st))); [ring|].
      unfold geq, mass, calculateGeqFromFeq. rewrite !sumf_scal_r. change (gd_cfg gd) with cfg. change (st_D (gd_L gd)) with (st_D st). field. assumption. }
    rewrite M2, Rabs_mult, HB, E2. rewrite !Rmult_assoc. apply Rmult_le_compat_l; [apply Rabs_pos|].
    pose proof (cs2_ne t s Hs) as Hcn. fold st in Hcn.
    assert (Hcs0 : 0 <= st_cs2 st) by (rewrite <- Hsq; apply pow_le, Rabs_pos).
    eapply Rle_trans; [apply Rabs_triang|].
    replace (N * (st_cs2 st * (INR (st_D st) + Rabs (T * (2 / (cc_heat_gamma cfg - 1) - INR (st_D st))))))
      with (INR (st_D st) * (N * st_cs2 st) + st_cs2 st * Rabs (T * (2 / (cc_heat_gamma cfg - 1) - INR (st_D st))) * N) by ring.
    apply Rplus_le_compat.
    + eapply Rle_trans; [apply sumf_abs|]. rewrite <- sumf_const. apply sumf_le. intros a Ha. rewrite <- Hsq at 2. apply (P2 a a Ha Ha).
    + rewrite <- !Rmult_assoc, !Rabs_mult. rewrite (Rabs_right (st_cs2 st)) by lra. rewrite !Rmult_assoc.
      apply Rmult_le_compat_l; [assumption|]. apply Rmult_le_compat_l; [apply Rabs_pos|]. apply Rmult_le_compat_l; [apply Rabs_pos|exact P0].
  - intros a Ha. rewrite Hu. change (gd_scaling gd) with s. rewrite Hw by assumption. field. assumption.
Qed.
