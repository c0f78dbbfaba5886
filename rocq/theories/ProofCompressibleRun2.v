(** Mass, momentum and energy of compressible runs. *)
From Verif Require Import Prelude BigSum ModelConfigNames ModelStencils SpecStencils ModelEquilibria ModelCollision ModelRun ModelCheckpoint ModelSemiLagrangian ModelSEDG ModelTimeIntegration
  ModelSimulation ModelThermalWalls ModelCompressible SpecCollision SpecSetup SpecRun SpecSEDG SpecSEDGRun SpecSimulation SpecCompressible
  ProofStencils ProofWick ProofEquilibria ProofQuartic ProofEqMoments ProofCollideNode ProofFixed ProofCollideAll ProofCompressible ProofThermal
  ProofRun ProofRun2 ProofRestart ProofRestart2 ProofSimulation ProofSimulation2 ProofCompressibleRun.
Local Open Scope R_scope.

(** ** The initial populations *)
Lemma calc_sl L rho u T i : calcQuarticEquilibrium L rho u T i = rho * sl_equilibrium L u T i.
Proof.
  unfold calcQuarticEquilibrium, sl_equilibrium. cbv zeta.
  match goal with |- ?A + ?B = rho * (?C + ?E) => replace (rho * (C + E)) with (rho * C + rho * E) by ring end.
  apply f_equal2; [unfold Rdiv; ring|]. rewrite <- sumf_scal. apply sumf_ext. intros a _. rewrite <- sumf_scal. apply sumf_ext. intros b _.
  match goal with |- ?A + ?B = rho * (?C + ?E) => replace (rho * (C + E)) with (rho * C + rho * E) by ring end.
  apply f_equal2; [unfold Rdiv; ring|]. rewrite <- sumf_scal. apply sumf_ext. intros c _.
  match goal with |- ?A + ?B = rho * (?C + ?E) => replace (rho * (C + E)) with (rho * C + rho * E) by ring end.
  apply f_equal2; [unfold Rdiv; ring|]. rewrite <- sumf_scal. apply sumf_ext. intros d _. unfold Rdiv. ring.
Qed.
Lemma calc_quartic L rho u T i : st_D L = 2%nat \/ st_D L = 3%nat -> calcQuarticEquilibrium L rho u T i = QuarticEquilibrium_calc L rho u T i.
Proof. intros HD. rewrite calc_sl, sl_quartic by exact HD. rewrite !(quartic_split L HD). ring. Qed.
Lemma sl_ext L u v T i : (forall a, (a < st_D L)%nat -> u a = v a) -> sl_equilibrium L u T i = sl_equilibrium L v T i.
Proof.
  intros H. unfold sl_equilibrium. cbv zeta. f_equal.
  - rewrite (sumf_ext (st_D L) (fun j => u j * st_e L i j / st_cs2 L) (fun j => v j * st_e L i j / st_cs2 L)) by (intros; rewrite H by assumption; reflexivity).
    rewrite (sumf_ext (st_D L) (fun j => - (u j * u j) / (2 * st_cs2 L)) (fun j => - (v j * v j) / (2 * st_cs2 L))) by (intros; rewrite H by assumption; reflexivity).
    reflexivity.
  - apply sumf_ext. intros a Ha. apply sumf_ext. intros b Hb. f_equal. apply sumf_ext. intros c Hc. rewrite !H by assumption. f_equal.
    apply sumf_ext. intros d Hd. rewrite !H by assumption. reflexivity.
Qed.
Lemma quartic_ext L rho u v T i : st_D L = 2%nat \/ st_D L = 3%nat -> (forall a, (a < st_D L)%nat -> u a = v a) ->
  QuarticEquilibrium_calc L rho u T i = QuarticEquilibrium_calc L rho v T i.
Proof. intros HD H. rewrite <- !calc_quartic by exact HD. rewrite !calc_sl, (sl_ext L u v) by exact H. reflexivity. Qed.

Lemma owned_in n nodes : existsb (Nat.eqb n) nodes = true <-> In n nodes.
Proof.
  rewrite existsb_exists. split.
  - intros (x & Hx & E). apply Nat.eqb_eq in E. subst x. exact Hx.
  - intros H. exists n. split; [exact H|apply Nat.eqb_refl].
Qed.
Lemma initial_state t s gamma nodes x n : order6 t -> s <> 0 -> gamma <> 1 -> In n nodes ->
  let y := initialize gamma (stencil_of t s) s nodes x in
  carries (stencil_of t s) gamma (fg_f y n) (fg_g y n) (fg_rho x n) (fg_u x n) (fg_T x n).
Proof.
  intros [Ht H6] Hs Hga Hn y. unfold y, initialize. cbn [fg_f fg_g]. rewrite (proj2 (owned_in n nodes) Hn).
  set (L := unscale (stencil_of t s) s). set (rho := fg_rho x n). set (T := fg_T x n). set (v := fun j => fg_u x n j / s).
  assert (HD : st_D L = 2%nat \/ st_D L = 3%nat) by apply st_dim.
  pose proof (iso_unscaled t s (moment_order t) Ht Hs (le_n _)) as Hiso. pose proof (cs2_unscaled_neq0 t s Hs) as Hcs. fold L in Hiso, Hcs.
  assert (E : forall i, (i < st_Q L)%nat -> calcQuarticEquilibrium L rho v T i = QuarticEquilibrium_calc L rho v T i) by (intros; apply calc_quartic; exact HD).
  assert (M0 : mass L (calcQuarticEquilibrium L rho v T) = rho).
  { rewrite (mass_ext L _ _ E). apply (q_mass L (moment_order t) Hiso); assumption || lia. }
  split; [|split].
  - rewrite (mass_unscale (stencil_of t s) s). exact M0.
  - intros a Ha. rewrite (momentum_unscale (stencil_of t s) s Hs). fold L. rewrite (momentum_ext L _ _ a E), (q_momentum L (moment_order t) Hiso) by (assumption || lia).
    unfold v. field. exact Hs.
  - rewrite (energy2_unscale (stencil_of t s) s) by exact Hs. fold L. rewrite energy2_moments.
    rewrite (sumf_ext (st_D L) _ (fun a => rho * (v a * v a) + rho * T * st_cs2 L)).
    2:{ intros a Ha. rewrite (moment2_ext L _ _ a a E), (q_moment2 L (moment_order t) Hiso) by (assumption || lia). rewrite delta_refl. ring. }
    rewrite sumf_plus, sumf_scal, sumf_const. fold (dot (st_D L) v v).
    unfold mass at 1. rewrite !sumf_scal_r. change (sumf (st_Q L) (calcQuarticEquilibrium L rho v T)) with (mass L (calcQuarticEquilibrium L rho v T)). rewrite M0.
    unfold gas_energy2. change (st_D L) with (st_D (stencil_of t s)).
    replace (dot (st_D (stencil_of t s)) (fg_u x n) (fg_u x n)) with (s * s * dot (st_D (stencil_of t s)) v v).
    2:{ unfold dot. rewrite <- sumf_scal. apply sumf_ext. intros a _. unfold v. field. exact Hs. }
    replace (st_cs2 (stencil_of t s)) with (s * s * st_cs2 L) by (unfold L; cbn [unscale st_cs2]; field; exact Hs).
    fold rho T. field. lra.
Qed.

(** ** Collision of all nodes *)
Section All.
  Variables (q : T_equilibrium) (gd : genData).
  Definition node_done_g (s s' : fields_g) (n : nat) : Prop :=
    exists o, collide_node_g q gd false (fg_f s n) (fg_g s n) (fg_u s n) = Ok o /\
      fg_f s' n = ng_f o /\ fg_g s' n = ng_g o /\ fg_rho s' n = ng_rho o /\ fg_u s' n = ng_u o /\ fg_T s' n = ng_T o.
  Definition node_kept_g (s s' : fields_g) (n : nat) : Prop :=
    fg_f s' n = fg_f s n /\ fg_g s' n = fg_g s n /\ fg_rho s' n = fg_rho s n /\ fg_u s' n = fg_u s n /\ fg_T s' n = fg_T s n.
  Lemma loop_ok_g nodes : forall d s s' d', NoDup nodes -> collide_loop_g q gd nodes d s = Ok (s', d') ->
    (forall n, In n nodes -> node_done_g s s' n) /\ (forall n, ~ In n nodes -> node_kept_g s s' n).
  Proof.
    induction nodes as [|m rest IH]; intros d s s' d' Hnd H; cbn [collide_loop_g] in H.
    - injection H as <- <-. split; [intros n []|intros; repeat split].
    - destruct (collide_node_g q gd false (fg_f s m) (fg_g s m) (fg_u s m)) as [o| |] eqn:Ho; try discriminate. cbn [obind] in H.
      inversion Hnd as [|m' r' Hm Hnd']; subst.
      destruct (IH _ _ _ _ Hnd' H) as [H1 H2]. split.
      + intros n [<- | Hn].
        * destruct (H2 m Hm) as (E1 & E2 & E3 & E4 & E5). cbn [fg_f fg_g fg_rho fg_u fg_T] in *.
          rewrite upd_same in E1; rewrite upd_same in E2; rewrite upd_same in E3; rewrite upd_same in E4; rewrite upd_same in E5. exists o. auto 10.
        * assert (Hne : n <> m) by (intros ->; contradiction).
          destruct (H1 n Hn) as (o' & Ho' & E). cbn [fg_f fg_g fg_u] in Ho'.
          rewrite (upd_other (fg_f s)), (upd_other (fg_g s)), (upd_other (fg_u s)) in Ho' by assumption. exists o'. auto.
      + intros n Hn. assert (Hne : n <> m) by (intros ->; apply Hn; left; reflexivity).
        destruct (H2 n (fun Hx => Hn (or_intror Hx))) as (E1 & E2 & E3 & E4 & E5). cbn [fg_f fg_g fg_rho fg_u fg_T] in *.
        rewrite upd_other in E1 by assumption; rewrite upd_other in E2 by assumption; rewrite upd_other in E3 by assumption.
        rewrite upd_other in E4 by assumption; rewrite upd_other in E5 by assumption. repeat split; assumption.
  Qed.
  Lemma all_node_by_node_g nodes s s' : NoDup nodes -> collideAll_g q gd nodes s = Ok s' ->
    (forall n, In n nodes -> node_done_g s s' n) /\ (forall n, ~ In n nodes -> node_kept_g s s' n).
  Proof.
    intros Hnd. unfold collideAll_g. destruct (collide_loop_g q gd nodes 0 s) as [[s1 d]| |] eqn:E; try discriminate. cbn [obind snd fst].
    destruct (Rle_dec d (1 / 10^10)); [discriminate|]. intros H. injection H as <-. eapply loop_ok_g; eassumption.
  Qed.
  Lemma loop_runs_g nodes : forall d s, NoDup nodes ->
    (forall n, In n nodes -> exists o, collide_node_g q gd false (fg_f s n) (fg_g s n) (fg_u s n) = Ok o /\ 1 / 10^10 < ng_rho o) ->
    exists s' d', collide_loop_g q gd nodes d s = Ok (s', d') /\ (nodes = [] /\ d' = d \/ 1 / 10^10 < d').
  Proof.
    induction nodes as [|m rest IH]; intros d s Hnd H; cbn [collide_loop_g].
    - exists s, d. auto.
    - destruct (H m (or_introl eq_refl)) as [o [Ho Hr]]. rewrite Ho. cbn [obind].
      inversion Hnd as [|m' r' Hm Hnd']; subst.
      match goal with |- context [collide_loop_g q gd rest (ng_rho o) ?s1] =>
        destruct (IH (ng_rho o) s1 Hnd') as [s' [d' [Hs' Hd']]] end.
      + intros n Hn. assert (Hne : n <> m) by (intros ->; contradiction). cbn [fg_f fg_g fg_u].
        rewrite (upd_other (fg_f s)), (upd_other (fg_g s)), (upd_other (fg_u s)) by assumption. apply H. right. assumption.
      + exists s', d'. split; [assumption|]. right. destruct Hd' as [[_ ->]|Hd']; assumption.
  Qed.
  Lemma all_runs_g nodes s : NoDup nodes -> nodes <> [] ->
    (forall n, In n nodes -> exists o, collide_node_g q gd false (fg_f s n) (fg_g s n) (fg_u s n) = Ok o /\ 1 / 10^10 < ng_rho o) ->
    exists s', collideAll_g q gd nodes s = Ok s'.
  Proof.
    intros Hnd Hne H. destruct (loop_runs_g nodes 0 s Hnd H) as [s' [d' [Hl Hd]]].
    exists s'. unfold collideAll_g. rewrite Hl. cbn [obind snd fst].
    destruct Hd as [[E _]|Hd]; [contradiction|]. destruct (Rle_dec d' (1 / 10^10)); [lra|reflexivity].
  Qed.
End All.

(** After a collision density, velocity and temperature are those of the new populations. *)
Lemma collided_carries cfg t s nu dt f g u o : order6 t -> valid_setup cfg s nu dt -> cc_heat_gamma cfg <> 1 ->
  collide_node_g QuarticEquilibrium (make_genData cfg None (stencil_of t s) s nu dt) false f g u = Ok o ->
  carries (stencil_of t s) (cc_heat_gamma cfg) (ng_f o) (ng_g o) (ng_rho o) (ng_u o) (ng_T o).
Proof.
  intros Ho6 Hv Hga H. destruct (compressible_ok cfg t s nu dt f g u o Ho6 Hv Hga H) as ([A B] & C & E & F).
  assert (Hs : s <> 0) by (destruct Hv; lra).
  set (gd := make_genData cfg None (stencil_of t s) s nu dt) in *.
  destruct (node_g_inv _ gd f g u o eq_refl H) as [Hd [Hrho [Hu [HT _]]]]. change (gd_L gd) with (unscale (stencil_of t s) s) in *.
  set (L := unscale (stencil_of t s) s) in *. set (rho := sumf (st_Q L) f) in *. assert (Hr0 : rho <> 0) by (apply dens_neq0; assumption).
  set (v := calculateVelocity L f rho) in *. pose proof (cs2_unscaled_neq0 t s Hs) as Hcs. fold L in Hcs.
  assert (Hj : forall a, (a < st_D L)%nat -> rho * v a = momentum L f a) by (intros a Ha; exact (vel_momentum t s f rho a Hs Hr0 Ha)).
  split; [rewrite A, E; reflexivity|]. split.
  - intros a Ha. rewrite (B a Ha), (F a Ha), E. change (mass (stencil_of t s) f) with rho. field. exact Hr0.
  - rewrite C, (energy2_unscale (stencil_of t s) s) by exact Hs. fold L.
    pose proof (temperature_energy gd f g v rho Hcs Hr0 Hga eq_refl Hj) as Hte. change (gd_L gd) with L in Hte. rewrite <- HT in Hte. change (gd_cfg gd) with cfg in Hte.
    unfold gas_energy2. rewrite Hrho.
    replace (dot (st_D (stencil_of t s)) (ng_u o) (ng_u o)) with (s * s * dot (st_D L) v v).
    2:{ unfold dot. rewrite <- sumf_scal. apply sumf_ext. intros a _. rewrite Hu. change (gd_scaling gd) with s. ring. }
    replace (st_cs2 (stencil_of t s)) with (s * s * st_cs2 L) by (unfold L; cbn [unscale st_cs2]; field; exact Hs).
    replace (energy2 L f g) with (2 * rho * (1 / (cc_heat_gamma cfg - 1)) * st_cs2 L * ng_T o + rho * dot (st_D L) v v) by (rewrite Hte; ring).
    field. lra.
Qed.
