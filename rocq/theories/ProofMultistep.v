(** One collision of the multistep object. *)
From Verif Require Import Prelude StencilData ModelStencils SpecStencils SpecCollision BigSum ProofStencils
  ModelConfigNames ModelEquilibria ModelCollision ProofEquilibria ProofEqMoments ProofCollideNode ProofCollideAll
  ModelOldCollision SpecOldCollision ProofOldCollision ProofOldNode ProofOldForce ModelMultistep SpecMultistep.
Local Open Scope R_scope.

Definition multi_source (m : multi) (rho : R) (v : nat -> R) : nat -> R := source_D2Q9 (forced m) rho v.
Definition multi_v (m : multi) (f : nat -> R) : nat -> R :=
  snd (force_velocities (forced m) (mass (D2Q9 (om_s (mu_m m))) f) (raw_D2Q9 (om_s (mu_m m)) (mass (D2Q9 (om_s (mu_m m))) f) f)).

Lemma multi_node_inv m f F FEq r : om_t (mu_m m) = Stencil_D2Q9 -> om_s (mu_m m) <> 0 ->
  multi_node_D2Q9 m false f F FEq = Ok r ->
  let st := D2Q9 (om_s (mu_m m)) in
  let E := old_eq BGKStandard st (mass st f) (multi_v m f) in
  1 / 10^10 <= mass st f /\ no_rho (fst r) = mass st f /\
  no_u (fst r) = fst (force_velocities (forced m) (mass st f) (raw_D2Q9 (om_s (mu_m m)) (mass st f) f)) /\
  (forall i, (i < 9)%nat -> snd r i = E i) /\
  forall i, (i < 9)%nat -> no_f (fst r) i = advance m (f i) (E i) (F i) (FEq i) + multi_source m (mass st f) (multi_v m f) i.
Proof.
  intros Ht Hs H. cbv zeta. unfold multi_source, source_D2Q9, multi_v. cbn [forced om_t om_s om_forceType om_F om_dt om_prefactor].
  unfold multi_node_D2Q9 in H. rewrite Ht in *. cbn [stencil_of] in *. apply checked_inv in H. destruct H as [Hd H].
  change (sumf 9 f) with (mass (D2Q9 (om_s (mu_m m))) f) in *. split; [assumption|].
  destruct (force_velocities (forced m) (mass (D2Q9 (om_s (mu_m m))) f) (raw_D2Q9 (om_s (mu_m m)) (mass (D2Q9 (om_s (mu_m m))) f) f)) as [w v].
  cbn [fst snd] in *. injection H as <-. cbn [fst snd no_f no_rho no_u].
  split; [reflexivity|]. split; [reflexivity|].
  assert (HE : forall i, (i < 9)%nat -> feq_D2Q9 (1/2) (- (v 0%nat * v 0%nat + v 1%nat * v 1%nat) / (2 * st_cs2 (D2Q9 (om_s (mu_m m)))))
    (om_s (mu_m m) / st_cs2 (D2Q9 (om_s (mu_m m)))) (mass (D2Q9 (om_s (mu_m m))) f) v i
    = old_eq BGKStandard (D2Q9 (om_s (mu_m m))) (mass (D2Q9 (om_s (mu_m m))) f) v i) by (intros; apply feq9_ok; assumption).
  split; [exact HE|]. intros i Hi.
  destruct (om_forceType (mu_m m)); rewrite <- (HE i Hi); [rewrite Rplus_0_r|rewrite Rplus_0_r| |]; reflexivity.
Qed.

Lemma multi_node_runs m f F FEq : om_t (mu_m m) = Stencil_D2Q9 -> 1 / 10^10 <= mass (D2Q9 (om_s (mu_m m))) f ->
  exists r, multi_node_D2Q9 m false f F FEq = Ok r.
Proof.
  intros Ht Hd. unfold multi_node_D2Q9. change (sumf 9 f) with (mass (D2Q9 (om_s (mu_m m))) f).
  rewrite checked_ok by assumption.
  destruct (force_velocities (forced m) (mass (D2Q9 (om_s (mu_m m))) f) (raw_D2Q9 (om_s (mu_m m)) (mass (D2Q9 (om_s (mu_m m))) f) f)) as [w v].
  eexists. reflexivity.
Qed.

(** ** Every node *)
Lemma mloop_ok m nodes : forall x x', NoDup nodes -> multi_loop_D2Q9 m false nodes x = Ok x' ->
  (forall n, In n nodes -> exists r, multi_node_D2Q9 m false (fl_f (ms_x x) n) (ms_F x n) (ms_FEq x n) = Ok r /\
     fl_f (ms_x x') n = no_f (fst r) /\ fl_rho (ms_x x') n = no_rho (fst r) /\ fl_u (ms_x x') n = no_u (fst r) /\
     ms_F x' n = fl_f (ms_x x) n /\ ms_FEq x' n = snd r) /\
  (forall n, ~ In n nodes -> untouched (ms_x x) (ms_x x') n /\ ms_F x' n = ms_F x n /\ ms_FEq x' n = ms_FEq x n).
Proof.
  induction nodes as [|k rest IH]; intros x x' Hnd H; cbn [multi_loop_D2Q9] in H.
  - injection H as <-. split; [intros n []|intros; repeat split].
  - destruct (multi_node_D2Q9 m false (fl_f (ms_x x) k) (ms_F x k) (ms_FEq x k)) as [r| |] eqn:Ho; try discriminate. cbn [obind] in H.
    inversion Hnd as [|k' r' Hk Hnd']; subst.
    destruct (IH _ _ Hnd' H) as [H1 H2]. cbn [ms_x ms_F ms_FEq fl_f fl_rho fl_u] in H1, H2. split.
    + intros n [<- | Hn].
      * destruct (H2 k Hk) as [[E1 [E2 E3]] [E4 E5]]. cbn [fl_f fl_rho fl_u] in *.
        rewrite upd_same in E1; rewrite upd_same in E2; rewrite upd_same in E3; rewrite upd_same in E4; rewrite upd_same in E5. exists r. repeat split; assumption.
      * assert (Hne : n <> k) by (intros ->; contradiction).
        destruct (H1 n Hn) as [o' [Ho' [E1 [E2 [E3 [E4 E5]]]]]].
        rewrite (upd_other (fl_f (ms_x x))), (upd_other (ms_F x)), (upd_other (ms_FEq x)) in Ho' by assumption. rewrite upd_other in E4 by assumption. exists o'. repeat split; assumption.
    + intros n Hn. assert (Hne : n <> k) by (intros ->; apply Hn; left; reflexivity).
      destruct (H2 n (fun Hx => Hn (or_intror Hx))) as [[E1 [E2 E3]] [E4 E5]]. cbn [fl_f fl_rho fl_u] in *.
      rewrite upd_other in E1 by assumption; rewrite upd_other in E2 by assumption; rewrite upd_other in E3 by assumption; rewrite upd_other in E4 by assumption; rewrite upd_other in E5 by assumption. repeat split; assumption.
Qed.
Lemma mloop_runs m nodes : om_t (mu_m m) = Stencil_D2Q9 -> forall x, NoDup nodes ->
  (forall n, In n nodes -> 1 / 10^10 <= mass (D2Q9 (om_s (mu_m m))) (fl_f (ms_x x) n)) ->
  exists x', multi_loop_D2Q9 m false nodes x = Ok x'.
Proof.
  intros Ht. induction nodes as [|k rest IH]; intros x Hnd H; cbn [multi_loop_D2Q9].
  - exists x. reflexivity.
  - destruct (multi_node_runs m _ (ms_F x k) (ms_FEq x k) Ht (H k (or_introl eq_refl))) as [r Hr]. rewrite Hr. cbn [obind].
    inversion Hnd as [|k' r' Hk Hnd']; subst. apply IH; [assumption|].
    intros n Hn. assert (Hne : n <> k) by (intros ->; contradiction). cbn [ms_x fl_f].
    rewrite upd_other by assumption. apply H. right. assumption.
Qed.

(** The former populations the collision works with. *)
Definition hist_F (x : mstate) : nat -> nat -> R := if ms_first x then fl_f (ms_x x) else ms_F x.
Definition hist_FEq (x : mstate) : nat -> nat -> R := if ms_first x then fl_f (ms_x x) else ms_FEq x.

Lemma multi_ok m nodes x x' : om_t (mu_m m) = Stencil_D2Q9 -> NoDup nodes -> multi_collideAll m false nodes x = Ok x' ->
  ms_first x' = false /\
  (forall n, In n nodes -> exists r, multi_node_D2Q9 m false (fl_f (ms_x x) n) (hist_F x n) (hist_FEq x n) = Ok r /\
     fl_f (ms_x x') n = no_f (fst r) /\ fl_rho (ms_x x') n = no_rho (fst r) /\ fl_u (ms_x x') n = no_u (fst r) /\
     ms_F x' n = fl_f (ms_x x) n /\ ms_FEq x' n = snd r) /\
  (forall n, ~ In n nodes -> untouched (ms_x x) (ms_x x') n).
Proof.
  intros Ht Hnd H. unfold multi_collideAll in H. rewrite Ht in H. unfold start_history, reinit, hist_F, hist_FEq in *.
  destruct (ms_first x) eqn:Ef.
  - cbn [ms_first ms_x] in H. match type of H with obind ?l _ = _ => destruct l as [y| |] eqn:Ey; try discriminate end.
    cbn [obind] in H. injection H as <-. destruct (mloop_ok _ _ _ _ Hnd Ey) as [A B].
    split; [reflexivity|]. split; [exact A|]. intros n Hn. exact (proj1 (B n Hn)).
  - rewrite Ef in H. match type of H with obind ?l _ = _ => destruct l as [y| |] eqn:Ey; try discriminate end.
    cbn [obind] in H. injection H as <-. destruct (mloop_ok _ _ _ _ Hnd Ey) as [A B].
    split; [reflexivity|]. split; [exact A|]. intros n Hn. exact (proj1 (B n Hn)).
Qed.
Lemma multi_runs m nodes x : om_t (mu_m m) = Stencil_D2Q9 -> NoDup nodes ->
  (forall n, In n nodes -> 1 / 10^10 <= mass (D2Q9 (om_s (mu_m m))) (fl_f (ms_x x) n)) ->
  exists x', multi_collideAll m false nodes x = Ok x'.
Proof.
  intros Ht Hnd H. unfold multi_collideAll. rewrite Ht.
  destruct (mloop_runs m nodes Ht (start_history (reinit x)) Hnd) as [y Hy].
  - intros n Hn. unfold start_history, reinit. destruct (ms_first x) eqn:Ef; [cbn [ms_first ms_x]; apply H; exact Hn|rewrite Ef; apply H; exact Hn].
  - rewrite Hy. eexists. reflexivity.
Qed.

(** ** Moments of one collision *)
Definition adv_f (m : multi) : R := match mu_scheme m with ADAMSMOULTON4 => 1 | BDF2 => 4/3 end.
Definition adv_F (m : multi) : R := match mu_scheme m with ADAMSMOULTON4 => 0 | BDF2 => - (1/3) end.
Lemma advance_lin m f e F FEq : advance m f e F FEq = adv_f m * f + adv_F m * F + factor0 m * (f - e) + factor1 m * (F - FEq).
Proof. unfold advance, adv_f, adv_F. destruct (mu_scheme m); ring. Qed.

Section Moments.
  Variable m : multi.
  Let st := D2Q9 (om_s (mu_m m)).
  Hypothesis Ht : om_t (mu_m m) = Stencil_D2Q9.
  Hypothesis Hs : om_s (mu_m m) <> 0.

  Lemma eq9_mass rho u : mass st (old_eq BGKStandard st rho u) = rho.
  Proof. unfold st. change (D2Q9 (om_s (mu_m m))) with (stencil_of Stencil_D2Q9 (om_s (mu_m m))). rewrite old_eq_mass; [reflexivity|reflexivity|assumption]. Qed.
  Lemma eq9_momentum rho u a : (a < 2)%nat -> momentum st (old_eq BGKStandard st rho u) a = rho * u a.
  Proof. intros Ha. unfold st. change (D2Q9 (om_s (mu_m m))) with (stencil_of Stencil_D2Q9 (om_s (mu_m m))). rewrite old_eq_momentum; [reflexivity|reflexivity|assumption|exact Ha]. Qed.

  Lemma node_moment (w : nat -> R) f F FEq r : multi_node_D2Q9 m false f F FEq = Ok r ->
    let W g := sumf 9 (fun i => g i * w i) in
    let E := old_eq BGKStandard st (mass st f) (multi_v m f) in
    W (no_f (fst r)) = adv_f m * W f + adv_F m * W F + factor0 m * (W f - W E) + factor1 m * (W F - W FEq)
                       + W (multi_source m (mass st f) (multi_v m f)).
  Proof.
    intros H W E. destruct (multi_node_inv _ _ _ _ _ Ht Hs H) as (_ & _ & _ & _ & Hf). fold st in Hf. fold E in Hf. unfold W.
    rewrite (sumf_ext 9 (fun i => no_f (fst r) i * w i)
      (fun i => adv_f m * (f i * w i) + adv_F m * (F i * w i) + factor0 m * (f i * w i - E i * w i) + factor1 m * (F i * w i - FEq i * w i)
                + multi_source m (mass st f) (multi_v m f) i * w i)).
    - rewrite !sumf_plus, !sumf_scal, !sumf_minus. reflexivity.
    - intros i Hi. rewrite (Hf i Hi), advance_lin. ring.
  Qed.
  Lemma node_mass f F FEq r : multi_node_D2Q9 m false f F FEq = Ok r ->
    mass st (no_f (fst r)) = adv_f m * mass st f + adv_F m * mass st F + factor1 m * (mass st F - mass st FEq)
                             + mass st (multi_source m (mass st f) (multi_v m f)).
  Proof.
    intros H. pose proof (node_moment (fun _ => 1) f F FEq r H) as E. cbv zeta beta in E.
    assert (W1 : forall g, sumf 9 (fun i => g i * 1) = mass st g) by (intros; unfold mass, st; apply sumf_ext; intros; ring).
    rewrite !W1, eq9_mass in E. rewrite E. ring.
  Qed.
  Lemma node_momentum f F FEq r a : (a < 2)%nat -> multi_node_D2Q9 m false f F FEq = Ok r ->
    momentum st (no_f (fst r)) a = adv_f m * momentum st f a + adv_F m * momentum st F a
      + factor0 m * (momentum st f a - mass st f * multi_v m f a) + factor1 m * (momentum st F a - momentum st FEq a)
      + momentum st (multi_source m (mass st f) (multi_v m f)) a.
  Proof.
    intros Ha H. pose proof (node_moment (fun i => st_e st i a) f F FEq r H) as E. cbv zeta beta in E.
    assert (W1 : forall g, sumf 9 (fun i => g i * st_e st i a) = momentum st g a) by (intros; reflexivity).
    rewrite !W1, (eq9_momentum _ _ a Ha) in E. rewrite E. reflexivity.
  Qed.

  Lemma former_mass f F FEq r : multi_node_D2Q9 m false f F FEq = Ok r -> mass st (snd r) = mass st f.
  Proof.
    intros H. destruct (multi_node_inv _ _ _ _ _ Ht Hs H) as (_ & _ & _ & He & _). fold st in He.
    rewrite (mass_ext st _ _ He). apply eq9_mass.
  Qed.
  Lemma former_momentum f F FEq r a : (a < 2)%nat -> multi_node_D2Q9 m false f F FEq = Ok r -> momentum st (snd r) a = mass st f * multi_v m f a.
  Proof.
    intros Ha H. destruct (multi_node_inv _ _ _ _ _ Ht Hs H) as (_ & _ & _ & He & _). fold st in He.
    rewrite (momentum_ext st _ _ a He). apply eq9_momentum. exact Ha.
  Qed.

  (** Without a force. *)
  Hypothesis HF : om_forceType (mu_m m) = NO_FORCING.
  Lemma v_unforced f a : mass st f <> 0 -> (a < 2)%nat -> multi_v m f a = momentum st f a / mass st f.
  Proof.
    intros Hr Ha. unfold multi_v, force_velocities. cbn [forced om_forceType]. rewrite HF. cbn [snd]. apply raw9_ok; assumption.
  Qed.
  Lemma source_unforced rho v i : multi_source m rho v i = 0.
  Proof. unfold multi_source, source_D2Q9. cbn [forced om_forceType]. rewrite HF. reflexivity. Qed.
  Lemma eq_unforced f i : mass st f <> 0 -> (i < 9)%nat -> old_eq BGKStandard st (mass st f) (multi_v m f) i = equilibrium st f i.
  Proof.
    intros Hr Hi. rewrite (old_eq_ext BGKStandard st (mass st f) (multi_v m f) (fun a => momentum st f a / mass st f) i)
      by (intros a Ha; apply v_unforced; assumption).
    assert (Hc : st_cs2 st <> 0).
    { unfold st. apply Rgt_not_eq. change (D2Q9 (om_s (mu_m m))) with (stencil_of Stencil_D2Q9 (om_s (mu_m m))). apply cs2_pos; assumption. }
    unfold old_eq, equilibrium. cbv zeta.
    assert (E1 : sp (st_D st) (fun a => momentum st f a / mass st f) (st_e st i) = dot (st_D st) (st_e st i) (fun a => momentum st f a / mass st f)).
    { unfold sp, dot. apply sumf_ext. intros. ring. }
    assert (E2 : sp (st_D st) (fun a => momentum st f a / mass st f) (fun a => momentum st f a / mass st f)
               = dot (st_D st) (fun a => momentum st f a / mass st f) (fun a => momentum st f a / mass st f)) by reflexivity.
    rewrite E1, E2. destruct i as [|i].
    - assert (E0 : dot (st_D st) (st_e st 0) (fun a => momentum st f a / mass st f) = 0).
      { unfold dot, st. cbn [D2Q9 st_D st_e sumf]. lit15. ring. }
      rewrite E0. field. exact Hc.
    - field. exact Hc.
  Qed.
End Moments.
