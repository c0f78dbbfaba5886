(** The initial state of the compressible solver and uniform gases. *)
From Verif Require Import Prelude BigSum ModelConfigNames ModelStencils SpecStencils ModelEquilibria ModelCollision ModelRun ModelCheckpoint ModelSemiLagrangian ModelSEDG ModelTimeIntegration
  ModelSimulation ModelThermalWalls ModelCompressible SpecCollision SpecSetup SpecRun SpecSEDG SpecSEDGRun SpecSimulation SpecCompressible
  ProofStencils ProofWick ProofEquilibria ProofQuartic ProofEqMoments ProofCollideNode ProofFixed ProofCollideAll ProofCompressible ProofThermal
  ProofRun ProofRun2 ProofRestart ProofRestart2 ProofSimulation ProofSimulation2 ProofCompressibleRun ProofCompressibleRun2.
Local Open Scope R_scope.

(** [f], [g] as set by initializeDistributions for [rho], [u], [T]. *)
Definition initial_pair (st : stencil) (s gamma rho : R) (u : nat -> R) (T : R) (f g : nat -> R) : Prop :=
  forall i, (i < st_Q st)%nat -> f i = calcQuarticEquilibrium (unscale st s) rho (fun j => u j / s) T i /\
    g i = calcQuarticEquilibrium (unscale st s) rho (fun j => u j / s) T i * T * (2 * (1 / (gamma - 1)) - INR (st_D st)).

Lemma carries_ext st gamma f g f' g' rho u T : (forall i, (i < st_Q st)%nat -> f i = f' i /\ g i = g' i) -> carries st gamma f' g' rho u T -> carries st gamma f g rho u T.
Proof.
  intros H (A & B & C). split; [|split].
  - rewrite <- A. apply sumf_ext. intros i Hi. apply H. exact Hi.
  - intros a Ha. rewrite <- (B a Ha). apply sumf_ext. intros i Hi. rewrite (proj1 (H i Hi)). reflexivity.
  - rewrite <- C. unfold energy2. apply sumf_ext. intros i Hi. destruct (H i Hi) as [-> ->]. reflexivity.
Qed.
Lemma pair_carries t s gamma rho u T f g : order6 t -> s <> 0 -> gamma <> 1 -> initial_pair (stencil_of t s) s gamma rho u T f g -> carries (stencil_of t s) gamma f g rho u T.
Proof.
  intros Ho Hs Hga H.
  set (x := {| fg_f := fun _ => f; fg_g := fun _ => g; fg_rho := fun _ => rho; fg_u := fun _ => u; fg_T := fun _ => T |}).
  refine (carries_ext _ _ _ _ _ _ _ _ _ _ (initial_state t s gamma [0%nat] x 0%nat Ho Hs Hga (or_introl eq_refl))). exact H.
Qed.

Lemma fixed_g cfg t s nu dt rho v T f g u : order6 t -> valid_setup cfg s nu dt -> cc_heat_gamma cfg <> 1 -> 1 / 10^10 <= rho ->
  initial_pair (stencil_of t s) s (cc_heat_gamma cfg) rho v T f g ->
  exists o, collide_node_g QuarticEquilibrium (make_genData cfg None (stencil_of t s) s nu dt) false f g u = Ok o /\
    (forall i, (i < st_Q (stencil_of t s))%nat -> ng_f o i = f i /\ ng_g o i = g i) /\
    ng_rho o = rho /\ (forall a, (a < st_D (stencil_of t s))%nat -> ng_u o a = v a) /\ ng_T o = T.
Proof.
  intros Ho6 Hv Hga Hr H. assert (Hs : s <> 0) by (destruct Hv; lra).
  destruct (pair_carries t s _ rho v T f g Ho6 Hs Hga H) as (C1 & C2 & C3).
  assert (Hr0 : rho <> 0) by (assert (0 < 1 / 10^10) by (apply Rdiv_lt_0_compat; [lra|apply pow_lt; lra]); lra).
  destruct (compressible_runs cfg t s nu dt f g u) as [o Eo]. { unfold dense. rewrite C1. exact Hr. }
  exists o. split; [exact Eo|].
  destruct (compressible_ok cfg t s nu dt f g u o Ho6 Hv Hga Eo) as ((K1 & K2) & K3 & K4 & K5).
  destruct (collided_carries cfg t s nu dt f g u o Ho6 Hv Hga Eo) as (K6 & K7 & K8).
  assert (Er : ng_rho o = rho) by (rewrite K4; exact C1).
  assert (Eu : forall a, (a < st_D (stencil_of t s))%nat -> ng_u o a = v a).
  { intros a Ha. rewrite (K5 a Ha), (C2 a Ha), C1. field. exact Hr0. }
  assert (Hcs := cs2_unscaled_neq0 t s Hs).
  assert (ET : ng_T o = T).
  { rewrite K3, C3 in K8. unfold gas_energy2 in K8. rewrite Er in K8.
    replace (dot (st_D (stencil_of t s)) (ng_u o) (ng_u o)) with (dot (st_D (stencil_of t s)) v v) in K8.
    2:{ apply sumf_ext. intros a Ha. rewrite (Eu a Ha). reflexivity. }
    assert (Hc : st_cs2 (stencil_of t s) <> 0). { cbn [unscale st_cs2] in Hcs. intros Z. rewrite Z in Hcs. apply Hcs. unfold Rdiv. ring. }
    apply (Rmult_eq_reg_l (2 * rho * (st_cs2 (stencil_of t s) / (cc_heat_gamma cfg - 1)))); [lra|].
    apply Rmult_integral_contrapositive_currified; [apply Rmult_integral_contrapositive_currified; lra|].
    apply Rmult_integral_contrapositive_currified; [exact Hc|apply Rinv_neq_0_compat; lra]. }
  split; [|split; [exact Er|split; [exact Eu|exact ET]]].
  set (gd := make_genData cfg None (stencil_of t s) s nu dt) in *.
  destruct (node_g_inv _ gd f g u o eq_refl Eo) as [Hd [Hrho [Hu [HT [feq [mask Hrel]]]]]]. rewrite <- HT, <- Hrho, ET, Er in Hrel.
  change (gd_L gd) with (unscale (stencil_of t s) s) in *. set (L := unscale (stencil_of t s) s) in *.
  set (w := calculateVelocity L f rho) in *.
  assert (HD : st_D L = 2%nat \/ st_D L = 3%nat) by apply st_dim.
  assert (Ew : forall a, (a < st_D L)%nat -> w a = v a / s).
  { intros a Ha. rewrite <- (Eu a Ha), Hu. change (gd_scaling gd) with s. rewrite <- Hrho, Er. fold w. field. exact Hs. }
  unfold relaxWithG in Hrel. cbn [eq_calc obind] in Hrel. change (gd_L gd) with L in Hrel. cbv zeta in Hrel.
  assert (F0 : forall i, (i < st_Q L)%nat -> f i - QuarticEquilibrium_calc L rho w T i = 0).
  { intros i Hi. destruct (H i Hi) as [-> _]. fold L. rewrite (calc_quartic L rho _ T i HD), (quartic_ext L rho w (fun j => v j / s) T i HD Ew). ring. }
  assert (G0 : forall i, (i < st_Q L)%nat -> g i - calculateGeqFromFeq gd T (QuarticEquilibrium_calc L rho w T) i = 0).
  { intros i Hi. destruct (H i Hi) as [_ ->]. fold L. unfold calculateGeqFromFeq. rewrite (calc_quartic L rho _ T i HD), (quartic_ext L rho w (fun j => v j / s) T i HD Ew).
    change (gd_L gd) with L. change (gd_cfg gd) with cfg. change (INR (st_D (stencil_of t s))) with (INR (st_D L)). ring. }
  assert (S0 : forall i, calculateFStar L (centeredHeatFluxTensor L w (fun p => f p - QuarticEquilibrium_calc L rho w T p)) i = 0).
  { intros i. unfold calculateFStar. cbv zeta. apply sumf_zero. intros a _. apply sumf_zero. intros b _. apply sumf_zero. intros e _.
    unfold centeredHeatFluxTensor. rewrite (sumf_zero (st_Q L)); [unfold Rdiv; ring|]. intros j Hj. rewrite (F0 j Hj). ring. }
  assert (S1 : forall i, calculateGStar L T (centeredMomentumFlux L w (fun p => g p - calculateGeqFromFeq gd T (QuarticEquilibrium_calc L rho w T) p)) i = 0).
  { intros i. unfold calculateGStar. apply sumf_zero. intros a _. unfold centeredMomentumFlux. rewrite (sumf_zero (st_Q L)); [unfold Rdiv; ring|].
    intros j Hj. rewrite (G0 j Hj). ring. }
  injection Hrel as Ef Eg _ _. intros i Hi. rewrite <- Ef, <- Eg. rewrite (F0 i Hi), (G0 i Hi).
  change (gd_cfg gd) with cfg. destruct (cc_prandtl_set cfg); [rewrite S0, S1|]; split; ring.
Qed.

(** ** Uniform gases *)
Section Uniform.
  Context {cell : Type} (S : space cell) (qn : nat -> nat) (fd : nat -> nat -> nat) (t : StencilType) (scaling : R)
          (velocity : nat -> option (point -> point)) (cells : list cell) (N : nat).
  Notation st := (stencil_of t scaling).
  Hypothesis Hd : sp_dim S = st_D st.
  Hypothesis Ho6 : order6 t.
  Hypothesis G : good_mesh S qn fd cells.
  Hypothesis Sup : supported S velocity cells.
  Hypothesis HN : numbers S cells N.
  Hypothesis Nw : no_walls S cells.
  Variable s : system.
  Hypothesis Es : reassemble S st false velocity cells empty_system = Ok s.
  Variables (cfg : collision_config) (nu dt : R).
  Hypothesis Hv : valid_setup cfg scaling nu dt.
  Hypothesis Hga : cc_heat_gamma cfg <> 1.
  Variables (nodes : list nat) (filt : (nat -> nat -> R) -> nat -> nat -> R) (c : run_config).
  Hypothesis Hnd : NoDup nodes.
  Hypothesis Hown : forall n, In n nodes <-> (n < N)%nat.
  Hypothesis HN0 : (0 < N)%nat.
  Hypothesis Hin : rc_init c = EQUILIBRIUM.
  Variables (rho : R) (u : nat -> R) (T : R).
  Hypothesis Hrho : 1 / 10^10 < rho.
  Notation ga := (cc_heat_gamma cfg).
  Notation o := (dg_ops_g QuarticEquilibrium (make_genData cfg None st scaling nu dt) ga st scaling nodes N s filt).
  Let E i := calcQuarticEquilibrium (unscale st scaling) rho (fun j => u j / scaling) T i.
  Let EG i := E i * T * (2 * (1 / (ga - 1)) - INR (st_D st)).
  Definition pair_everywhere (x : fields_g) : Prop := forall n, (n < N)%nat -> initial_pair st scaling ga rho u T (fg_f x n) (fg_g x n).
  Hypothesis Hfilt : forall h f, (forall n i, (n < N)%nat -> (i < st_Q st)%nat -> f n i = h i) -> (forall n i, (n < N)%nat -> (i < st_Q st)%nat -> filt f n i = h i).
  Definition same_gas (x : fields_g) : Prop := pair_everywhere x /\
    forall n, (n < N)%nat -> fg_rho x n = rho /\ (forall a, (a < st_D st)%nat -> fg_u x n a = u a) /\ fg_T x n = T.

  Lemma pair_split x : pair_everywhere x <-> uniform t scaling N E (fg_f x) /\ uniform t scaling N EG (fg_g x).
  Proof.
    split.
    - intros H. split; intros n i Hn Hi; destruct (H n Hn i Hi) as [A B]; assumption.
    - intros [A B] n Hn i Hi. split; [apply A|apply B]; assumption.
  Qed.
  Lemma stream_pair h x : pair_everywhere x -> pair_everywhere (fst (so_integrate o h x)).
  Proof.
    intros H. apply pair_split in H. destruct H as [A B]. apply pair_split. cbn [dg_ops_g so_integrate fst fg_f fg_g].
    assert (W : forall h, forall cl f b v p a, In cl cells -> (f < faces_per_cell S)%nat -> (p < n_face_points S)%nat -> (1 <= a < st_Q st)%nat ->
      at_face S cl f = Outside b -> velocity b = Some v -> h a - h (opposite st a) = wall_shift S st (v (face_point S cl f p)) a).
    { intros hh cl f b v p a Hc Hf _ _ Eb. destruct (Nw cl f Hc Hf) as (c' & f' & E'). congruence. }
    split.
    - exact (uniform_stream S qn fd t scaling velocity cells N Hd G Sup HN s Es cfg nu dt Hv HN0 E (W E) h _ A).
    - exact (uniform_stream S qn fd t scaling velocity cells N Hd G Sup HN s Es cfg nu dt Hv HN0 EG (W EG) h _ B).
  Qed.
  Lemma collide_gas x : pair_everywhere x -> exists y, so_collide o x = Ok y /\ same_gas y.
  Proof.
    intros H. cbn [dg_ops_g so_collide]. set (gd := make_genData cfg None st scaling nu dt).
    assert (K : forall n, (n < N)%nat -> exists out, collide_node_g QuarticEquilibrium gd false (fg_f x n) (fg_g x n) (fg_u x n) = Ok out /\
      initial_pair st scaling ga rho u T (ng_f out) (ng_g out) /\ ng_rho out = rho /\ (forall a, (a < st_D st)%nat -> ng_u out a = u a) /\ ng_T out = T).
    { intros n Hn. destruct (fixed_g cfg t scaling nu dt rho u T (fg_f x n) (fg_g x n) (fg_u x n) Ho6 Hv Hga ltac:(lra) (H n Hn)) as (out & Eo & Ef & R).
      exists out. split; [exact Eo|]. split; [|exact R]. intros i Hi. destruct (Ef i Hi) as [-> ->]. apply (H n Hn i Hi). }
    destruct (all_runs_g QuarticEquilibrium gd nodes x Hnd) as [y Ey].
    - intros ->. apply (proj2 (Hown 0%nat)). exact HN0.
    - intros n Hn. apply Hown in Hn. destruct (K n Hn) as (out & Eo & _ & R & _). exists out. split; [exact Eo|]. rewrite R. exact Hrho.
    - exists y. split; [exact Ey|]. destruct (all_node_by_node_g QuarticEquilibrium gd nodes x y Hnd Ey) as [A _]. split.
      + intros n Hn. destruct (A n (proj2 (Hown n) Hn)) as (out & Eo & E1 & E2 & _). destruct (K n Hn) as (out' & Eo' & R & _). rewrite Eo in Eo'. injection Eo' as <-. rewrite E1, E2. exact R.
      + intros n Hn. destruct (A n (proj2 (Hown n) Hn)) as (out & Eo & _ & _ & E3 & E4 & E5). destruct (K n Hn) as (out' & Eo' & _ & R). rewrite Eo in Eo'. injection Eo' as <-. rewrite E3, E4, E5. exact R.
  Qed.
  Lemma gas_keeps : keeps o pair_everywhere.
  Proof.
    split; [|split; [|split; [|split]]].
    - intros x U. destruct (collide_gas x U) as (y & Ey & R). exists y. split; [exact Ey|apply R].
    - intros h x U. exact (stream_pair h x U).
    - intros h x U. exact (stream_pair h x U).
    - intros x U. apply pair_split in U. destruct U as [A B]. apply pair_split. cbn [dg_ops_g so_filter fg_f fg_g]. split; [exact (Hfilt E _ A)|exact (Hfilt EG _ B)].
    - intros p x [].
  Qed.
  Lemma evolve_gas m : forall i tm x y, same_gas x -> evolve c o m i tm dt x = Ok y -> same_gas y.
  Proof.
    destruct gas_keeps as (K1 & K2 & K3 & K4 & _).
    induction m as [|m IH]; intros i tm x y U Ee; cbn [evolve] in Ee.
    - injection Ee as <-. exact U.
    - assert (X : pair_everywhere (filtered c o (Datatypes.S i) (advected c o tm dt x))).
      { assert (Y : pair_everywhere (advected c o tm dt x)). { unfold advected. destruct (rc_semi_lagrangian c); [apply K2|apply K3]; apply U. }
        unfold filtered. destruct (rc_filtering c && _)%bool; [apply K4|]; exact Y. }
      destruct (collide_gas _ X) as (z & Ez & Rz). rewrite Ez in Ee. cbn [obind] in Ee. exact (IH _ _ _ _ Rz Ee).
  Qed.
  Lemma initial_gas x : (forall n, (n < N)%nat -> fg_rho x n = rho /\ (forall a, (a < st_D st)%nat -> fg_u x n a = u a) /\ fg_T x n = T) -> pair_everywhere (initialize ga st scaling nodes x).
  Proof.
    intros H n Hn i Hi. destruct (H n Hn) as (A & B & C). cbn [initialize fg_f fg_g]. rewrite (proj2 (owned_in n nodes) (proj2 (Hown n) Hn)).
    rewrite A, C. assert (X : calcQuarticEquilibrium (unscale st scaling) rho (fun j => fg_u x n j / scaling) T i = calcQuarticEquilibrium (unscale st scaling) rho (fun j => u j / scaling) T i).
    { rewrite !calc_sl. f_equal. apply sl_ext. intros a Ha. rewrite (B a Ha). reflexivity. }
    rewrite X. split; reflexivity.
  Qed.

  (** the run *)
  Lemma loop_of_g x0 : pair_everywhere (first_state c o x0) -> valid_intervals c ->
    exists s1 tr, run c o (Datatypes.S (rc_steps c - sv_start x0)) x0 = Some (Ok (s1, tr)).
  Proof.
    intros U Hvi. unfold run. cbv zeta.
    set (s1' := {| sv_start := sv_start x0 |}).
    set (m := if (rc_compressible c && Nat.leb (sv_i s1') 1)%bool then _ else _).
    assert (Hm : exists s1 n, m = Ok (s1, n) /\ sv_i s1 = sv_start x0 /\ sv_x s1 = first_state c o x0).
    { subst m. unfold first_state. change (sv_i s1') with (sv_start x0). destruct (rc_compressible c && Nat.leb (sv_start x0) 1)%bool.
      - unfold initializeDistributions_compressible. rewrite Hin. eexists _, _. split; [reflexivity|]. repeat split.
      - eexists _, _. split; [reflexivity|]. repeat split. }
    destruct Hm as (s1 & n & -> & A & B). cbn [obind fst snd]. unfold collide. rewrite B.
    destruct (proj1 gas_keeps _ U) as (y & Hy & Py). rewrite Hy. cbn [obind fst snd].
    match goal with |- context [loop c o ?n ?s ?t] => destruct (loop_runs c o pair_everywhere Hvi gas_keeps n s t) as (s4 & tr4 & El & P4) end.
    { cbn [set_x sv_i]. rewrite A. lia. } { exact Py. }
    rewrite El. destruct (output_runs c o s4 (sv_i s4) true Hvi) as [ev' ->]. eexists; eexists; reflexivity.
  Qed.
  Lemma gas_run s0 : valid_intervals c -> rc_compressible c = true -> (sv_start s0 <= 1)%nat -> sv_dt s0 = dt ->
    (forall n, (n < N)%nat -> fg_rho (sv_x s0) n = rho /\ (forall a, (a < st_D st)%nat -> fg_u (sv_x s0) n a = u a) /\ fg_T (sv_x s0) n = T) ->
    exists s1 tr, run c o (Datatypes.S (rc_steps c - sv_start s0)) s0 = Some (Ok (s1, tr)) /\
      forall n, (n < N)%nat -> fg_rho (sv_x s1) n = rho /\ (forall a, (a < st_D st)%nat -> fg_u (sv_x s1) n a = u a) /\ fg_T (sv_x s1) n = T.
  Proof.
    intros Hvi Hc Hst Edt H0. assert (U : pair_everywhere (first_state c o s0)).
    { unfold first_state. rewrite Hc. apply Nat.leb_le in Hst. rewrite Hst. cbn [andb]. apply initial_gas. exact H0. }
    destruct (loop_of_g s0 U Hvi) as (s1 & tr & Er). exists s1, tr. split; [exact Er|].
    destruct (run_evolve_g c o Hin _ s0 s1 tr (or_intror (fun _ _ => eq_refl)) Er) as (y & Hy & _ & Hev & _). rewrite Edt in Hev.
    destruct (collide_gas _ U) as (y' & Ey' & Ry). rewrite Ey' in Hy. injection Hy as ->. apply (evolve_gas _ _ _ _ _ Ry Hev).
  Qed.
End Uniform.
