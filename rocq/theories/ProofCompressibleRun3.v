(** Compressible simulations on periodic domains: mass, momentum and energy. *)
From Verif Require Import Prelude BigSum ModelConfigNames ModelStencils SpecStencils ModelEquilibria ModelCollision ModelRun ModelCheckpoint ModelSemiLagrangian ModelSEDG ModelTimeIntegration
  ModelSimulation ModelCompressible SpecCollision SpecSetup SpecRun SpecSEDG SpecSEDGRun SpecSimulation SpecCompressible
  ProofCollideAll ProofCompressible ProofRun ProofRun2 ProofRestart ProofRestart2 ProofSimulation ProofSimulation2 ProofCompressibleRun ProofCompressibleRun2.
Local Open Scope R_scope.

Section Simulation.
  Context {cell : Type} (S : space cell) (qn : nat -> nat) (fd : nat -> nat -> nat) (t : StencilType) (scaling : R)
          (velocity : nat -> option (point -> point)) (cells : list cell) (N : nat).
  Notation st := (stencil_of t scaling).
  Hypothesis Hd : sp_dim S = st_D st.
  Hypothesis Ho6 : order6 t.
  Hypothesis G : good_mesh S qn fd cells.
  Hypothesis Sup : supported S velocity cells.
  Hypothesis HN : numbers S cells N.
  Hypothesis Nw : no_walls S cells.
  Variable s : system.
  Hypothesis Es : reassemble S st false velocity cells empty_system = Ok s.
  Variables (cfg : collision_config) (nu dt : R).
  Hypothesis Hv : valid_setup cfg scaling nu dt.
  Hypothesis Hga : cc_heat_gamma cfg <> 1.
  Variables (nodes : list nat) (filt : (nat -> nat -> R) -> nat -> nat -> R) (c : run_config).
  Hypothesis Hnd : NoDup nodes.
  Hypothesis Hown : forall n, (n < N)%nat -> In n nodes.
  Hypothesis Hsl : rc_semi_lagrangian c = false.
  Hypothesis Hfl : rc_filtering c = false.
  Hypothesis Hin : rc_init c = EQUILIBRIUM.
  Notation ga := (cc_heat_gamma cfg).
  Notation o := (dg_ops_g QuarticEquilibrium (make_genData cfg None st scaling nu dt) ga st scaling nodes N s filt).
  Notation content := (content S qn cells).

  Let Hs : scaling <> 0.
  Proof. destruct Hv; lra. Qed.
  Let const : constant_step c o.
  Proof. right. reflexivity. Qed.

  Lemma collide_done x y : so_collide o x = Ok y -> forall n, (n < N)%nat ->
    node_done_g QuarticEquilibrium (make_genData cfg None st scaling nu dt) x y n.
  Proof.
    intros E n Hn. cbn [dg_ops_g so_collide] in E. destruct (all_node_by_node_g _ _ _ _ _ Hnd E) as [A _]. apply A. apply Hown. exact Hn.
  Qed.
  Lemma energy_flat f g : energy2 st f g = sumf (st_Q st) (fun i => f i * dot (st_D st) (st_e st i) (st_e st i)) + sumf (st_Q st) (fun i => g i * st_cs2 st).
  Proof. unfold energy2. rewrite <- sumf_plus. apply sumf_ext. intros; ring. Qed.

  (** The three totals. *)
  Lemma keeps_mass fuel s0 s1 tr : sv_dt s0 = dt -> run c o fuel s0 = Some (Ok (s1, tr)) ->
    let M x := content (fun n => mass st (fg_f x n)) in
    M (sv_x s1) = M (first_state c o s0) /\ forall m stat d, In (EvCheckpoint m stat d) tr -> exists x, d = so_data o x /\ M x = M (first_state c o s0).
  Proof.
    intros Edt E M. apply (run_keeps c o Hin M dt Hfl eq_refl) with (fuel := fuel) (s0 := s0); try assumption.
    - intros x y Exy. apply content_ext. intros cl i Hc Hi. destruct (collide_done x y Exy _ (proj1 HN cl i Hc Hi)) as (out & Eo & -> & _).
      exact (proj1 (proj1 (compressible_ok cfg t scaling nu dt _ _ _ out Ho6 Hv Hga Eo))).
    - intros tm x. unfold advected, M. rewrite Hsl. cbn [dg_ops_g so_integrate fst fg_f].
      rewrite (content_ext S qn cells (fun n => mass st (dg_stream N (st_Q st) s dt (fg_f x) n)) (fun n => sumf (st_Q st) (fun a => dg_stream N (st_Q st) s dt (fg_f x) n a * 1)))
        by (intros; unfold mass; apply sumf_ext; intros; ring).
      rewrite (stream_periodic S qn fd t scaling velocity cells N Hd Hs G Sup HN s Es dt (fg_f x) (fun _ => 1) Nw).
      apply content_ext. intros. unfold mass. apply sumf_ext. intros; ring.
  Qed.
  Lemma keeps_momentum fuel s0 s1 tr a : (a < st_D st)%nat -> sv_dt s0 = dt -> run c o fuel s0 = Some (Ok (s1, tr)) ->
    let M x := content (fun n => momentum st (fg_f x n) a) in
    M (sv_x s1) = M (first_state c o s0) /\ forall m stat d, In (EvCheckpoint m stat d) tr -> exists x, d = so_data o x /\ M x = M (first_state c o s0).
  Proof.
    intros Ha Edt E M. apply (run_keeps c o Hin M dt Hfl eq_refl) with (fuel := fuel) (s0 := s0); try assumption.
    - intros x y Exy. apply content_ext. intros cl i Hc Hi. destruct (collide_done x y Exy _ (proj1 HN cl i Hc Hi)) as (out & Eo & -> & _).
      exact (proj2 (proj1 (compressible_ok cfg t scaling nu dt _ _ _ out Ho6 Hv Hga Eo)) a Ha).
    - intros tm x. unfold advected, M. rewrite Hsl. cbn [dg_ops_g so_integrate fst fg_f].
      exact (stream_periodic S qn fd t scaling velocity cells N Hd Hs G Sup HN s Es dt (fg_f x) (fun b => st_e st b a) Nw).
  Qed.
  Lemma keeps_energy fuel s0 s1 tr : sv_dt s0 = dt -> run c o fuel s0 = Some (Ok (s1, tr)) ->
    let M x := content (fun n => energy2 st (fg_f x n) (fg_g x n)) in
    M (sv_x s1) = M (first_state c o s0) /\ forall m stat d, In (EvCheckpoint m stat d) tr -> exists x, d = so_data o x /\ M x = M (first_state c o s0).
  Proof.
    intros Edt E M. apply (run_keeps c o Hin M dt Hfl eq_refl) with (fuel := fuel) (s0 := s0); try assumption.
    - intros x y Exy. apply content_ext. intros cl i Hc Hi. destruct (collide_done x y Exy _ (proj1 HN cl i Hc Hi)) as (out & Eo & -> & -> & _).
      exact (proj1 (proj2 (compressible_ok cfg t scaling nu dt _ _ _ out Ho6 Hv Hga Eo))).
    - intros tm x. unfold advected, M. rewrite Hsl. cbn [dg_ops_g so_integrate fst fg_f fg_g].
      rewrite (content_ext S qn cells _ (fun n => sumf (st_Q st) (fun i => dg_stream N (st_Q st) s dt (fg_f x) n i * dot (st_D st) (st_e st i) (st_e st i))
        + sumf (st_Q st) (fun i => dg_stream N (st_Q st) s dt (fg_g x) n i * st_cs2 st))) by (intros; apply energy_flat).
      rewrite content_plus.
      rewrite (stream_periodic S qn fd t scaling velocity cells N Hd Hs G Sup HN s Es dt (fg_f x) (fun i => dot (st_D st) (st_e st i) (st_e st i)) Nw).
      rewrite (stream_periodic S qn fd t scaling velocity cells N Hd Hs G Sup HN s Es dt (fg_g x) (fun i => st_cs2 st) Nw).
      rewrite <- content_plus. apply content_ext. intros. symmetry. apply energy_flat.
  Qed.

  (** Density, velocity and temperature of the last state are those of its populations. *)
  Definition consistent (x : fields_g) : Prop := forall n, (n < N)%nat -> carries st ga (fg_f x n) (fg_g x n) (fg_rho x n) (fg_u x n) (fg_T x n).
  Lemma collide_consistent x y : so_collide o x = Ok y -> consistent y.
  Proof.
    intros E n Hn. destruct (collide_done x y E n Hn) as (out & Eo & -> & -> & -> & -> & ->).
    exact (collided_carries cfg t scaling nu dt _ _ _ out Ho6 Hv Hga Eo).
  Qed.
  Lemma evolve_consistent k : forall i tm x y, consistent x -> evolve c o k i tm dt x = Ok y -> consistent y.
  Proof.
    induction k as [|k IH]; intros i tm x y Hx E; cbn [evolve] in E.
    - injection E as <-. exact Hx.
    - unfold filtered in E. rewrite Hfl in E. cbn [andb] in E.
      destruct (so_collide o (advected c o tm dt x)) as [z| |] eqn:Ez; cbn [obind] in E; try discriminate.
      cbn [dg_ops_g so_processors fold_left] in E. apply IH in E; [exact E|]. apply (collide_consistent _ _ Ez).
  Qed.
  Lemma run_consistent fuel s0 s1 tr : sv_dt s0 = dt -> run c o fuel s0 = Some (Ok (s1, tr)) -> consistent (sv_x s1).
  Proof.
    intros Edt E. destruct (run_evolve_g c o Hin fuel s0 s1 tr const E) as (y & Hy & _ & Hev & _). rewrite Edt in Hev.
    apply (evolve_consistent _ _ _ _ _ (collide_consistent _ _ Hy) Hev).
  Qed.

  (** [books x]: totals from the fields. *)
  Lemma books x (rho : nat -> R) u T : (forall n, (n < N)%nat -> carries st ga (fg_f x n) (fg_g x n) (rho n) (u n) (T n)) ->
    content (fun n => mass st (fg_f x n)) = content rho /\
    (forall a, (a < st_D st)%nat -> content (fun n => momentum st (fg_f x n) a) = content (fun n => rho n * u n a)) /\
    content (fun n => energy2 st (fg_f x n) (fg_g x n)) = content (fun n => gas_energy2 st ga (rho n) (u n) (T n)).
  Proof.
    intros H. split; [|split; [intros a Ha|]]; apply content_ext; intros cl i Hc Hi; destruct (H _ (proj1 HN cl i Hc Hi)) as (A & B & C); [exact A|apply B; exact Ha|exact C].
  Qed.

  Lemma fields_kept fuel s0 s1 tr : sv_dt s0 = dt -> run c o fuel s0 = Some (Ok (s1, tr)) -> forall rho u T,
    (forall n, (n < N)%nat -> carries st ga (fg_f (first_state c o s0) n) (fg_g (first_state c o s0) n) (rho n) (u n) (T n)) ->
    let x := sv_x s1 in
    content (fg_rho x) = content rho /\
    (forall a, (a < st_D st)%nat -> content (fun n => fg_rho x n * fg_u x n a) = content (fun n => rho n * u n a)) /\
    content (fun n => gas_energy2 st ga (fg_rho x n) (fg_u x n) (fg_T x n)) = content (fun n => gas_energy2 st ga (rho n) (u n) (T n)) /\
    forall m stat d, In (EvCheckpoint m stat d) tr ->
      content (fun n => mass st (fst d n)) = content rho /\
      (forall a, (a < st_D st)%nat -> content (fun n => momentum st (fst d n) a) = content (fun n => rho n * u n a)) /\
      content (fun n => energy2 st (fst d n) (snd d n)) = content (fun n => gas_energy2 st ga (rho n) (u n) (T n)).
  Proof.
    intros Edt E rho u T H x. destruct (books _ _ _ _ H) as (B1 & B2 & B3).
    destruct (books _ _ _ _ (run_consistent fuel s0 s1 tr Edt E)) as (C1 & C2 & C3).
    destruct (keeps_mass fuel s0 s1 tr Edt E) as [M1 M2]. destruct (keeps_energy fuel s0 s1 tr Edt E) as [E1 E2].
    unfold x. split; [|split; [intros a Ha|split]].
    - rewrite <- C1, <- B1. exact M1.
    - rewrite <- (C2 a Ha), <- (B2 a Ha). exact (proj1 (keeps_momentum fuel s0 s1 tr a Ha Edt E)).
    - rewrite <- C3, <- B3. exact E1.
    - intros m stat d Hi. split; [|split; [intros a Ha|]].
      + destruct (M2 m stat d Hi) as (z & -> & Hz). cbn [dg_ops_g so_data fst]. rewrite <- B1. exact Hz.
      + destruct (proj2 (keeps_momentum fuel s0 s1 tr a Ha Edt E) m stat d Hi) as (z & -> & Hz). cbn [dg_ops_g so_data fst]. rewrite <- (B2 a Ha). exact Hz.
      + destruct (E2 m stat d Hi) as (z & -> & Hz). cbn [dg_ops_g so_data fst snd]. rewrite <- B3. exact Hz.
  Qed.

  (** A fresh run: the totals are those of the initial fields. *)
  Lemma fresh_run fuel s0 s1 tr : rc_compressible c = true -> (sv_start s0 <= 1)%nat -> sv_dt s0 = dt -> run c o fuel s0 = Some (Ok (s1, tr)) ->
    let x0 := sv_x s0 in let x := sv_x s1 in
    content (fg_rho x) = content (fg_rho x0) /\
    (forall a, (a < st_D st)%nat -> content (fun n => fg_rho x n * fg_u x n a) = content (fun n => fg_rho x0 n * fg_u x0 n a)) /\
    content (fun n => gas_energy2 st ga (fg_rho x n) (fg_u x n) (fg_T x n)) = content (fun n => gas_energy2 st ga (fg_rho x0 n) (fg_u x0 n) (fg_T x0 n)) /\
    forall m stat d, In (EvCheckpoint m stat d) tr ->
      content (fun n => mass st (fst d n)) = content (fg_rho x0) /\
      (forall a, (a < st_D st)%nat -> content (fun n => momentum st (fst d n) a) = content (fun n => fg_rho x0 n * fg_u x0 n a)) /\
      content (fun n => energy2 st (fst d n) (snd d n)) = content (fun n => gas_energy2 st ga (fg_rho x0 n) (fg_u x0 n) (fg_T x0 n)).
  Proof.
    intros Hc Hst Edt E x0. apply (fields_kept fuel s0 s1 tr Edt E). intros n Hn. unfold first_state. rewrite Hc. apply Nat.leb_le in Hst. rewrite Hst. cbn [andb].
    cbn [dg_ops_g so_set_equilibrium]. apply initial_state; try assumption. apply Hown. exact Hn.
  Qed.
End Simulation.
