(** The multistep object as the solver builds it: runs, first collision, forces, other stencils. *)
From Verif Require Import Prelude StencilData ModelStencils SpecStencils SpecCollision BigSum ProofStencils
  ModelConfigNames ModelEquilibria ModelCollision ProofEquilibria ProofEqMoments ProofCollideNode ProofCollideAll
  ModelOldCollision SpecOldCollision ProofOldCollision ProofOldNode ProofOldForce ProofOldLoop ModelMultistep SpecMultistep
  ProofMultistep ProofMultistep2 ProofMultistep3.
Local Open Scope R_scope.

Section Solver.
  Variables (c : multistep_scheme) (s nu dt : R) (m : multi) (nodes : list nat).
  Hypothesis Hs : s <> 0.
  Hypothesis Hm : make_multi c Stencil_D2Q9 s nu dt = Ok m.
  Hypothesis Hnd : NoDup nodes.
  Let st := D2Q9 s.

  Lemma solver_totals ops x x' : moves_keep_totals st nodes ops -> ms_first x = true -> perform m nodes ops x = Ok x' ->
    total_mass st nodes (fl_f (ms_x x')) = total_mass st nodes (fl_f (ms_x x)) /\
    forall a, (a < 2)%nat -> total_momentum st nodes (fl_f (ms_x x')) a = total_momentum st nodes (fl_f (ms_x x)) a.
  Proof.
    destruct (made _ _ _ _ _ Hm) as (Hn & Hd & Ec & En & Et & Es & Ed & Ef). intros HT Hf H.
    unfold st in *. rewrite <- Es in *. apply (perform_totals m nodes Et Hs Ef Hnd ops); try assumption. apply carries_first. assumption.
  Qed.

  Section Start.
    Variable x : mstate.
    Hypothesis Hx : ms_first x = true.
    Hypothesis Hd : forall n, In n nodes -> 1 / 10^10 <= mass st (fl_f (ms_x x) n).

    Lemma solver_run k : exists x', collide_times m nodes k x = Ok x' /\
      forall n i, In n nodes -> (i < 9)%nat ->
        fl_f (ms_x x') n i = equilibrium st (fl_f (ms_x x) n) i + amp m k * (fl_f (ms_x x) n i - equilibrium st (fl_f (ms_x x) n) i).
    Proof.
      destruct (made _ _ _ _ _ Hm) as (Hn & Hdt & Ec & En & Et & Es & Ed & Ef). unfold st in *. rewrite <- Es in *.
      destruct (times_run m nodes Et Hs Ef Hnd k x Hx Hd) as (x' & E & _ & A). exists x'. split; [exact E|].
      intros n i Hn' Hi. destruct (A n Hn') as (_ & B & _). exact (B i Hi).
    Qed.

    Lemma solver_settles n i : In n nodes -> (i < 9)%nat -> Un_cv (amp m) 0 ->
      settles m nodes x n i (equilibrium st (fl_f (ms_x x) n) i).
    Proof.
      intros Hn Hi Hcv eps He. set (d := fl_f (ms_x x) n i - equilibrium st (fl_f (ms_x x) n) i).
      assert (Hp : 0 < eps / (Rabs d + 1)) by (apply Rdiv_lt_0_compat; [exact He|pose proof (Rabs_pos d); lra]).
      destruct (Hcv _ Hp) as [N HN]. exists N. intros k Hk. destruct (solver_run k) as (x' & E & A). exists x'. split; [exact E|].
      rewrite (A n i Hn Hi). fold d. replace (_ + amp m k * d - _) with (amp m k * d) by ring. rewrite Rabs_mult.
      specialize (HN k Hk). unfold R_dist in HN. rewrite Rminus_0_r in HN. pose proof (Rabs_pos d) as Pd.
      apply (Rle_lt_trans _ (Rabs (amp m k) * (Rabs d + 1))); [apply Rmult_le_compat_l; [apply Rabs_pos|lra]|].
      apply (Rlt_le_trans _ (eps / (Rabs d + 1) * (Rabs d + 1))); [apply Rmult_lt_compat_r; lra|right; field; lra].
    Qed.

    Lemma solver_blows_up n i : In n nodes -> (i < 9)%nat -> c = ADAMSMOULTON4 -> ratio s nu dt < 1/6 ->
      fl_f (ms_x x) n i <> equilibrium st (fl_f (ms_x x) n) i -> blows_up m nodes x n i.
    Proof.
      intros Hn Hi Hc HL Hne M. set (e := equilibrium st (fl_f (ms_x x) n) i) in *. set (d := fl_f (ms_x x) n i - e).
      assert (Pd : 0 < Rabs d) by (apply Rabs_pos_lt; unfold d; lra).
      destruct (am4_growth c s nu dt m Hs Hm Hc (Rlt_le _ _ HL)) as (q & C & _ & Hq & HC & G). specialize (Hq HL).
      destruct (Pow_x_infinity q (ltac:(rewrite Rabs_right; lra)) ((Rabs M + Rabs e + 1) / (C * Rabs d))) as [N HN].
      exists (2 * N)%nat. intros k Hk. destruct (solver_run k) as (x' & E & A). exists x'. split; [exact E|].
      rewrite (A n i Hn Hi). fold e d.
      assert (HA : exists j, (N <= j)%nat /\ C * q ^ j <= Rabs (amp m k)).
      { destruct (Nat.Even_or_Odd k) as [[j ->]|[j ->]].
        - exists j. split; [lia|]. exact (proj1 (G j)).
        - exists j. split; [lia|]. replace (2 * j + 1)%nat with (S (2 * j)) by lia. exact (proj2 (G j)). }
      destruct HA as (j & Hj & HA). specialize (HN j Hj). rewrite Rabs_right in HN by (apply Rle_ge, pow_le; lra).
      assert (HB : Rabs M + Rabs e + 1 <= C * q ^ j * Rabs d).
      { apply (Rle_trans _ (C * Rabs d * ((Rabs M + Rabs e + 1) / (C * Rabs d)))); [right; field; lra|].
        replace (C * q ^ j * Rabs d) with (C * Rabs d * q ^ j) by ring.
        apply Rmult_le_compat_l; [apply Rmult_le_pos; lra|apply Rge_le; exact HN]. }
      assert (HD : C * q ^ j * Rabs d <= Rabs (amp m k * d)) by (rewrite Rabs_mult; apply Rmult_le_compat_r; lra).
      pose proof (Rabs_triang_inv (amp m k * d) (- e)) as HT. rewrite Rabs_Ropp in HT.
      replace (amp m k * d - - e) with (e + amp m k * d) in HT by ring.
      pose proof (Rle_abs M). lra.
    Qed.

    Lemma solver_never n i : In n nodes -> (i < 9)%nat -> c = ADAMSMOULTON4 -> ratio s nu dt <= 1/6 ->
      fl_f (ms_x x) n i <> equilibrium st (fl_f (ms_x x) n) i -> ~ settles m nodes x n i (equilibrium st (fl_f (ms_x x) n) i).
    Proof.
      intros Hn Hi Hc HL Hne Hset. set (e := equilibrium st (fl_f (ms_x x) n) i) in *. set (d := fl_f (ms_x x) n i - e).
      assert (Pd : 0 < Rabs d) by (apply Rabs_pos_lt; unfold d; lra).
      destruct (am4_growth c s nu dt m Hs Hm Hc HL) as (q & C & Hq & _ & HC & G).
      destruct (Hset (C * Rabs d) (Rmult_lt_0_compat _ _ HC Pd)) as [N HN].
      destruct (HN (2 * N)%nat (ltac:(lia))) as (x' & E & A). destruct (solver_run (2 * N)) as (x'' & E' & A').
      assert (x' = x'') by congruence. subst x''. rewrite (A' n i Hn Hi) in A. fold e d in A.
      replace (e + amp m (2 * N) * d - e) with (amp m (2 * N) * d) in A by ring. rewrite Rabs_mult in A.
      destruct (G N) as [G1 _]. assert (1 <= q ^ N) by (apply pow_R1_Rle; exact Hq).
      assert (C * Rabs d <= Rabs (amp m (2 * N)) * Rabs d) by (apply Rmult_le_compat_r; [lra|]; apply (Rle_trans _ (C * q ^ N)); [nra|exact G1]).
      lra.
    Qed.

    Lemma solver_method n i : In n nodes -> (i < 9)%nat ->
      let e := equilibrium st (fl_f (ms_x x) n) i in
      let lambda := nu / st_cs2 st in
      exists y, multistep_method c lambda dt e y /\
        forall k, exists x', collide_times m nodes k x = Ok x' /\ fl_f (ms_x x') n i = y k + implicit_weight c * dt / lambda * (y k - e).
    Proof.
      intros Hn Hi e lambda. set (d := fl_f (ms_x x) n i - e).
      exists (fun k => e + amp m k * d / (1 + implicit_weight c / ratio s nu dt)). split; [exact (method_ok c s nu dt m Hs Hm e d)|].
      intros k. destruct (solver_run k) as (x' & E & A). exists x'. split; [exact E|]. rewrite (A n i Hn Hi). fold e d.
      pose proof (ratio_pos c s nu dt m Hs Hm) as Hr. destruct (made _ _ _ _ _ Hm) as (Hnu & Hdt & _).
      pose proof (cs_pos s Hs) as Hcs. fold st in Hcs.
      assert (El : implicit_weight c * dt / lambda = implicit_weight c / ratio s nu dt) by (unfold lambda, ratio; fold st; field; repeat split; lra).
      rewrite El. assert (Hw : 0 < implicit_weight c) by (destruct c; cbn; lra). field. split; lra.
    Qed.
  End Start.

  (** ** First collision and BGKStandard *)
  Lemma factor_differs : factor0 m <> relax_factor m.
  Proof.
    pose proof (ratio_pos c s nu dt m Hs Hm) as Hr. rewrite (factor0_ok c s nu dt m Hs Hm), (relax_ok c s nu dt m Hs Hm). intros E. destruct c.
    - assert (X : - 13 * (2 * ratio s nu dt + 1) = - 2 * (12 * ratio s nu dt + 5)).
      { replace (- 13 * (2 * ratio s nu dt + 1)) with (- 13 / (12 * ratio s nu dt + 5) * ((12 * ratio s nu dt + 5) * (2 * ratio s nu dt + 1))) by (field; lra).
        rewrite E. field. lra. }
      lra.
    - assert (X : - 8 * (2 * ratio s nu dt + 1) = - 2 * (9 * ratio s nu dt + 6)).
      { replace (- 8 * (2 * ratio s nu dt + 1)) with (- 8 / (9 * ratio s nu dt + 6) * ((9 * ratio s nu dt + 6) * (2 * ratio s nu dt + 1))) by (field; lra).
        rewrite E. field. lra. }
      lra.
  Qed.

  Lemma first_vs_bgk o x x' y' : make_old BGKStandard Stencil_D2Q9 s nu dt = Ok o -> ms_first x = true ->
    multi_collideAll m false nodes x = Ok x' -> old_collideAll BGKStandard o false nodes (ms_x x) = Ok y' ->
    forall n i, In n nodes -> (i < 9)%nat ->
      (fl_f (ms_x x') n i = fl_f y' n i <-> fl_f (ms_x x) n i = equilibrium st (fl_f (ms_x x) n) i).
  Proof.
    intros Ho Hf Hx Hy n i Hn Hi.
    destruct (made _ _ _ _ _ Hm) as (Hnu & Hdt & Ec & En & Et & Es & Ed & Ef).
    assert (Eo : o = mu_m m).
    { unfold make_old in Ho. unfold make_multi in Hm. destruct (calculateRelaxationParameter _ _ _ _); [|discriminate|discriminate].
      cbn [obind] in Ho, Hm. injection Ho as <-. injection Hm as <-. reflexivity. }
    assert (Ep : om_prefactor o = relax_factor m).
    { rewrite (relax_ok c s nu dt m Hs Hm). unfold make_old, calculateRelaxationParameter in Ho. destruct (Rlt_dec 0 nu); [|discriminate]. destruct (Rlt_dec 0 dt); [|discriminate].
      cbn [obind] in Ho. injection Ho as <-. cbn [old_new om_prefactor stencil_of]. pose proof (ratio_pos c s nu dt m Hs Hm) as Hrp.
      pose proof (cs_pos s Hs) as Hc.
      assert (Er : nu / (dt * st_cs2 (D2Q9 s)) = ratio s nu dt) by (unfold ratio; field; lra).
      cbn [D2Q9 st_cs2] in Er. rewrite Er. field. lra. }
    destruct (multi_ok m nodes x x' Et Hnd Hx) as (_ & A & _). destruct (A n Hn) as (r & Hr & E1 & _).
    assert (Hs' : om_s (mu_m m) <> 0) by (rewrite Es; exact Hs).
    destruct (multi_node_inv _ _ _ _ _ Et Hs' Hr) as (Hd & _ & _ & _ & Hg).
    destruct (old_all_ok _ _ _ _ _ _ Hnd Hy) as [B _]. destruct (B n Hn) as (o1 & Ho1 & F1 & _). rewrite Eo in Ho1.
    destruct (force_node_D2Q9 _ _ _ _ _ _ Et Hs' Ho1) as (_ & _ & _ & Hg1). cbv zeta in *.
    rewrite Et in Hg1. cbn [stencil_of] in Hg1. rewrite Es in Hd, Hg, Hg1. fold st in Hd, Hg, Hg1.
    assert (Hr0 : mass st (fl_f (ms_x x) n) <> 0) by (apply dens_neq0; exact Hd).
    rewrite E1, F1, (Hg i Hi), (Hg1 i Hi).
    pose proof (eq_unforced m Hs' Ef (fl_f (ms_x x) n) i) as Q. rewrite Es in Q. fold st in Q. rewrite (Q Hr0 Hi).
    assert (Q1 : old_eq BGKStandard st (mass st (fl_f (ms_x x) n)) (snd (force_velocities (mu_m m) (mass st (fl_f (ms_x x) n)) (raw_D2Q9 s (mass st (fl_f (ms_x x) n)) (fl_f (ms_x x) n)))) i
                 = equilibrium st (fl_f (ms_x x) n) i).
    { rewrite <- (Q Hr0 Hi). unfold multi_v, force_velocities. cbn [forced om_forceType]. rewrite Ef, Es. reflexivity. }
    unfold add_relaxed. rewrite Q1, advance_lin, (source_unforced m Ef). unfold source_D2Q9. rewrite Ef. unfold hist_F, hist_FEq. rewrite Hf.
    rewrite Eo in Ep. rewrite Ep. replace (adv_F m) with (1 - adv_f m) by (pose proof (adv_sum m); lra).
    set (f := fl_f (ms_x x) n i). set (e := equilibrium st (fl_f (ms_x x) n) i). pose proof factor_differs as Hne. split.
    - intros E. assert (Z : (factor0 m - relax_factor m) * (f - e) = 0) by lra.
      apply Rmult_integral in Z. destruct Z as [Z|Z]; lra.
    - intros E. rewrite E. ring.
  Qed.
End Solver.
