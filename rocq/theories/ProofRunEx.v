(** Concrete runs for the examples and refutations of PropRun. *)
From Verif Require Import Prelude ModelStencils ModelConfigNames ModelEquilibria ModelCollision ModelRun ModelCheckpoint
  SpecRun SpecCheckpoint ProofRun ProofRun2 ProofRestart ProofRestart2.
Open Scope R_scope.

(** a run with unit time step reaches the requested number of steps *)
Lemma unit_run : forall {X D} (o : solver_ops X D) P steps s0, keeps o P -> P (sv_x s0) -> (steps < 1000)%nat ->
  (sv_start s0 <= steps)%nat -> sv_time s0 = INR (sv_start s0) -> sv_dt s0 = 1 -> sv_res_u s0 = 1 ->
  exists s tr, run (w_c steps 1) o (S (steps - sv_start s0)) s0 = Some (Ok (s, tr)) /\ sv_i s = steps.
Proof.
  intros X D o P steps s0 HP H0 Hsteps Hst Ht Hdt Hres. set (c := w_c steps 1).
  assert (Hv : valid_intervals c) by (repeat split; cbn; lia).
  destruct (run_runs c o P Hv HP s0 eq_refl H0) as (s & tr & E & _).
  exists s, tr. split; [exact E|].
  assert (Hr : 0 <= sv_res_u s0) by lra.
  destruct (run_final c o _ s0 s tr (or_introl eq_refl) (Rle_refl 0) Hr E) as [Q1 Q2].
  destruct (run_steps _ _ _ _ _ _ E) as (Q3 & _).
  rewrite Ht, Hdt in *. cbn [c w_c rc_steps rc_end_time] in Q1, Q2.
  destruct (Nat.lt_trichotomy (sv_i s) steps) as [H|[H|H]]; [|exact H|].
  - exfalso. destruct Q1 as [Q1|Q1]; [lia|]. rewrite Rmult_1_r, <- plus_INR in Q1.
    assert (H1 : INR (sv_start s0 + (sv_i s - sv_start s0)) < INR 1000) by (apply lt_INR; lia).
    rewrite (INR_IZR_INZ 1000) in H1. change (Z.of_nat 1000) with 1000%Z in H1. lra.
  - exfalso. apply (Q2 steps); [lia|left; lia].
Qed.

(** the two-node solver of ProofRestart2 *)
Lemma w_run : forall steps, (steps < 1000)%nat -> exists s tr,
  run (w_c steps 1) w_ops (S steps) (fresh w_x0 1) = Some (Ok (s, tr)) /\ sv_i s = steps.
Proof.
  intros steps Hsteps. destruct (unit_run w_ops good steps (fresh w_x0 1)) as (s & tr & E & Hi); auto; [exact w_keeps| |cbn; lia|].
  { exists 1, 1, 2, 2. split; [exact w_x0_is|]. repeat split; lra. }
  cbn [fresh sv_start] in E. rewrite Nat.sub_0_r in E. eauto.
Qed.

(** ** Initialisation: one node holding one number *)
Definition t_ops (g : R -> R) : solver_ops R R :=
  {| so_nodes := [0%nat]; so_dim := 1; so_scaling := 1; so_velocity := fun _ _ _ => 0; so_density := fun x _ => x; so_data := fun x => x;
     so_collide := fun x => Ok x; so_advect := fun _ x => g x; so_integrate := fun dt x => (g x, dt); so_filter := fun x => x;
     so_processors := []; so_init_collide := fun x => x; so_set_equilibrium := fun x => x; so_add_gradients := fun x => x |}.
Definition t_c (compressible : bool) (init : InitializationSchemeName) (target : R) (budget : nat) : run_config :=
  {| rc_compressible := compressible; rc_semi_lagrangian := true; rc_steps := 1; rc_end_time := 1000; rc_threshold := 0;
     rc_output_off := false; rc_solution_interval := 1; rc_table_interval := 1; rc_checkpoint_interval := 1;
     rc_filtering := false; rc_filter_interval := 1; rc_order := 1; rc_init := init; rc_init_residual := target; rc_init_steps := budget |}.

Lemma init_budget_bad : forall m, exists (o : solver_ops R R) c s s' n,
  rc_init c = ITERATIVE /\ rc_init_steps c = m /\ 0 < rc_init_residual c /\
  initializeDistributions c o (m + 2) s = Some (s', n) /\ (rc_init_steps c < n)%nat.
Proof.
  intros m. set (o := t_ops (fun x => x + 1)). set (c := t_c false ITERATIVE (1/2) m). set (s := fresh 0 1).
  pose proof (initialization_ends c o s) as H. change (rc_init_steps c) with m in H.
  destruct (initializeDistributions c o (m + 2) s) as [[s' n]|] eqn:E; [|contradiction].
  exists o, c, s, s', n. split; [reflexivity|split; [reflexivity|split; [cbn; lra|split; [exact E|]]]].
  destruct (initialization_ok c o _ s s' n eq_refl E) as (_ & [H1|H1] & _); [|change (rc_init_steps c) with m in *; lia].
  exfalso. revert H1. set (s0 := set_x s _). unfold init_residual.
  destruct n as [|k]; cbn [c t_c rc_init_residual]; [lra|]. cbn [o t_ops so_nodes norm_sqr fold_right so_density].
  cbn [init_states]. unfold init_step, stream. cbn [c t_c rc_semi_lagrangian set_x sv_x o t_ops so_init_collide so_advect]. lra.
Qed.

Lemma init_residual_ignored : forall m, exists (o : solver_ops R R) c s s' n,
  rc_init c = COMPRESSIBLE_ITERATIVE /\ rc_init_steps c = m /\ 0 < rc_init_residual c /\
  initializeDistributions_compressible c o s = Ok (s', n) /\
  (forall k, (0 < k)%nat -> init_residual c o k (set_x s (so_set_equilibrium o (sv_x s))) < rc_init_residual c) /\ n = m.
Proof.
  intros m. set (o := t_ops (fun x => x)). set (c := t_c true COMPRESSIBLE_ITERATIVE (1/2) m). set (s := fresh 0 1).
  destruct (initializeDistributions_compressible c o s) as [[s' n]| |] eqn:E; [|discriminate|discriminate].
  exists o, c, s, s', n. split; [reflexivity|split; [reflexivity|split; [cbn; lra|split; [exact E|split]]]].
  - intros [|k] Hk; [lia|]. unfold init_residual. cbn [o t_ops so_nodes norm_sqr fold_right so_density].
    cbn [init_states]. unfold init_step, stream. cbn [c t_c rc_semi_lagrangian set_x sv_x o t_ops so_init_collide so_advect rc_init_residual]. lra.
  - destruct (initialization_compressible_ok c o s s' n eq_refl E) as (H & _). exact H.
Qed.

Lemma init_example : exists s', initializeDistributions (t_c false ITERATIVE (1/10) 7) (t_ops (fun x => x / 2)) 9 (fresh 1 1) = Some (s', 2%nat).
Proof.
  unfold initializeDistributions. cbn [t_c rc_init t_ops so_set_equilibrium set_x sv_x fresh init_loop rc_init_residual rc_init_steps].
  destruct (Rle_lt_dec _ _) as [H|H]; [lra|]. cbn [Nat.ltb Nat.leb]. cbv zeta.
  cbn [init_step stream t_c t_ops rc_semi_lagrangian set_x sv_x so_nodes norm_sqr fold_right so_density so_init_collide so_advect].
  destruct (Rle_lt_dec _ _) as [H1|H1]; [unfold init_step, stream in H1; cbn in H1; lra|]. cbn [Nat.ltb Nat.leb]. cbv zeta.
  destruct (Rle_lt_dec _ _) as [H2|H2]; [|unfold init_step, stream in H2; cbn in H2; lra]. eexists. reflexivity.
Qed.

(** ** Restart with a collision that leaves collided states alone *)
Lemma restart_example : exists (c : run_config) (o : solver_ops R R) s0 s tr st d s' tr',
  constant_step c o /\ rc_compressible c = false /\ rc_threshold c <= 0 /\ 0 <= sv_res_u s0 /\
  run c o 4 s0 = Some (Ok (s, tr)) /\ In (EvCheckpoint 1%nat st d) tr /\ print_read (cs_time st) = cs_time st /\
  (forall y0 x, so_collide o (sv_x s0) = Ok y0 ->
       evolve c o (1 - sv_start s0) (sv_start s0) (sv_time s0) (sv_dt s0) y0 = Ok x -> so_collide o d = Ok x) /\
  run c o 4 (restarted (printed st) d (sv_dt s0)) = Some (Ok (s', tr')) /\ sv_i s = 3%nat.
Proof.
  set (o := t_ops (fun x => x + 1)). set (c := w_c 3 1).
  assert (HP : keeps o (fun _ => True)) by (split; [intros x _; exists x; split; [reflexivity|exact I]|repeat split]).
  destruct (unit_run o (fun _ => True) 3 (fresh 0 1) HP I) as (s & tr & E & Hi); try reflexivity; try (cbn; lia).
  change (S (3 - sv_start (fresh 0 1))) with 4%nat in E. fold c in E.
  destruct (run_checkpoints c o 4 _ _ _ E) as [Hcp _].
  assert (Hin : In 1%nat (checkpoints_of tr)).
  { apply Hcp. cbn [fresh sv_start]. split; [lia|]. unfold checkpoint_due. cbn [c w_c rc_checkpoint_interval rc_output_off]. split; [left; reflexivity|].
    split; [|split; [discriminate|left; reflexivity]]. cbn [INR]. assert (1 <= 10^8) by (apply pow_R1_Rle; lra). lra. }
  unfold checkpoints_of in Hin. apply in_flat_map in Hin. destruct Hin as (e & He1 & He2). destruct e; try contradiction. destruct He2 as [->|[]].
  assert (Hdt : constant_step c o) by (left; reflexivity).
  destruct (run_evolve c o 4 _ _ _ Hdt eq_refl E) as (y & Hy & _ & _ & HF).
  rewrite Forall_forall in HF. specialize (HF _ He1). destruct HF as (_ & Hsi & Hst & _ & _ & xn & V & Hd & _).
  cbn [fresh sv_start sv_time sv_dt sv_x] in *. cbn [Nat.sub] in V.
  assert (Hts : cs_time st = 1) by (rewrite Hst; cbn [Nat.sub INR]; ring).
  assert (Hpt : print_read (cs_time st) = 1) by (rewrite Hts; exact ProofCheckpoint.time_kept_1).
  destruct (unit_run o (fun _ => True) 3 (restarted (printed st) d 1) HP I) as (s' & tr' & E' & Hi'); try reflexivity; try lia.
  { cbn [restarted printed sv_start cs_iteration]. lia. }
  { cbn [restarted printed sv_start sv_time cs_time cs_iteration]. rewrite Hsi, Hpt. reflexivity. }
  cbn [restarted printed sv_start cs_iteration] in E'. rewrite Hsi in E'. cbn [Nat.sub] in E'.
  exists c, o, (fresh 0 1), s, tr, st, d, s', tr'.
  split; [exact Hdt|split; [reflexivity|split; [exact (Rle_refl 0)|split; [exact Rle_0_1|split; [exact E|split; [exact He1|split; [congruence|split; [|split; [|exact Hi]]]]]]]]].
  - intros y0 x Hy0 Hx. cbn [fresh sv_start sv_time sv_dt sv_x Nat.sub] in *. rewrite Hy in Hy0. injection Hy0 as <-. rewrite V in Hx. injection Hx as <-. rewrite Hd. reflexivity.
  - apply run_more_fuel. exact E'.
Qed.
