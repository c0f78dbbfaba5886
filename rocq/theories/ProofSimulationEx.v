(** Examples for PropSimulation: two cells, D2Q9. *)
From Coq Require Import FunctionalExtensionality.
From Verif Require Import Prelude BigSum ModelStencils SpecStencils ModelConfigNames ModelEquilibria ModelCollision ModelRun ModelCheckpoint ModelSemiLagrangian ModelSEDG
  ModelTimeIntegration ModelSimulation SpecCollision SpecSetup SpecCollideAll SpecRun SpecSEDG SpecSEDGRun SpecTimeIntegration SpecCheckpoint SpecSimulation
  ProofCollideNode ProofFixed ProofCollideAll ProofForces ProofPhysical ProofRun ProofRun2 ProofRestart ProofRestart2 ProofSEDGStencil ProofSEDGMesh ProofSEDGWitness ProofTimeIntegration4 ProofSEDGRun ProofSimulation ProofSimulation2.
Local Open Scope R_scope.

Definition eight : list nat := [0; 1; 2; 3; 4; 5; 6; 7]%nat.
Definition dg_c (steps : nat) : run_config :=
  {| rc_compressible := false; rc_semi_lagrangian := false; rc_steps := steps; rc_end_time := 1000; rc_threshold := 0;
     rc_output_off := false; rc_solution_interval := 1; rc_table_interval := 1; rc_checkpoint_interval := 1;
     rc_filtering := false; rc_filter_interval := 1; rc_order := 1; rc_init := EQUILIBRIUM; rc_init_residual := 0; rc_init_steps := 0 |}.
Lemma strip_numbers walls : numbers (strip walls) two 8.
Proof.
  split.
  - intros [|] i _ Hi; cbn [strip dofs_per_cell dof_index] in *; lia.
  - intros n Hn. destruct (Nat.lt_ge_cases n 4) as [H|H].
    + exists true, n. split; [left; reflexivity|]. cbn [strip dofs_per_cell dof_index]. lia.
    + exists false, (n - 4)%nat. split; [right; left; reflexivity|]. cbn [strip dofs_per_cell dof_index]. lia.
Qed.
Lemma eight_nodup : NoDup eight.
Proof. unfold eight. repeat constructor; cbn; intuition lia. Qed.
Lemma eight_all n : In n eight <-> (n < 8)%nat.
Proof. unfold eight. cbn. lia. Qed.
Lemma strip_volume walls : content (strip walls) (fun i => i) two (fun _ => 1) = 2.
Proof. unfold content, volume. cbn [strip two total dofs_per_cell JxW sumf dof_index]. lra. Qed.

Lemma bgk_same q gd f f' u u' o o' : (forall i, (i < st_Q (gd_L gd))%nat -> f i = f' i) ->
  collide_node BGKCollision q gd false f u = Ok o -> collide_node BGKCollision q gd false f' u' = Ok o' -> forall i, (i < st_Q (gd_L gd))%nat -> no_f o i = no_f o' i.
Proof.
  intros H. assert (Ed : sumf (st_Q (gd_L gd)) f = sumf (st_Q (gd_L gd)) f') by (apply sumf_ext; exact H).
  unfold collide_node, calculateDensity. rewrite Ed.
  destruct (Rlt_dec (sumf (st_Q (gd_L gd)) f') _) as [|_]; [discriminate|]. cbn [obind].
  assert (Ev : calculateVelocity (gd_L gd) f (sumf (st_Q (gd_L gd)) f') = calculateVelocity (gd_L gd) f' (sumf (st_Q (gd_L gd)) f')).
  { apply functional_extensionality. intros j. unfold calculateVelocity, is_DQ.
    destruct (Nat.eqb (st_D (gd_L gd)) 2 && Nat.eqb (st_Q (gd_L gd)) 9)%bool eqn:E2.
    { apply andb_prop in E2. destruct E2 as [_ E2]. apply Nat.eqb_eq in E2. unfold calculateVelocity_2_9. rewrite !H by lia. reflexivity. }
    destruct (Nat.eqb (st_D (gd_L gd)) 3 && Nat.eqb (st_Q (gd_L gd)) 19)%bool eqn:E3.
    { apply andb_prop in E3. destruct E3 as [_ E3]. apply Nat.eqb_eq in E3. unfold calculateVelocity_3_19. rewrite !H by lia. reflexivity. }
    unfold calculateVelocity_generic. f_equal. f_equal. apply sumf_ext. intros i Hi. rewrite H by exact Hi. reflexivity. }
  rewrite Ev. match goal with |- obind ?x _ = _ -> _ => destruct x as [[u1 v1]| |]; cbn [obind fst snd]; try discriminate end.
  unfold relax. match goal with |- context [eq_calc q (gd_L gd) ?g ?r v1 1] => destruct (eq_calc q (gd_L gd) g r v1 1) as [feq| |]; cbn [obind fst snd]; try discriminate end.
  destruct (gd_force gd) as [F|].
  - unfold postCollisionApplyForces. destruct (cc_forcing (gd_cfg gd)); cbn [obind]; try discriminate.
    + intros E E' i Hi. injection E as <-. injection E' as <-. cbn [no_f fst]. unfold relax_BGK. rewrite H by exact Hi. reflexivity.
    + match goal with |- context [eq_calc q (gd_L gd) ?g ?r ?v 1] => destruct (eq_calc q (gd_L gd) g r v 1) as [feq'| |]; cbn [obind fst snd]; try discriminate end.
      intros E E' i Hi. injection E as <-. injection E' as <-. cbn [no_f fst]. unfold relax_BGK. rewrite H by exact Hi. reflexivity.
  - intros E E' i Hi. injection E as <-. injection E' as <-. cbn [no_f fst]. unfold relax_BGK. rewrite H by exact Hi. reflexivity.
Qed.
(** Runs whose states stay uniform in space. *)
Definition even (f : nat -> nat -> R) : Prop := exists E, 1 / 10 ^ 10 < mass (stencil_of Stencil_D2Q9 1) E /\ forall n i, (n < 8)%nat -> (i < 9)%nat -> f n i = E i.
Definition pushed : collision_config := wcfg EXACT_DIFFERENCE RELAX_FULL DELLAR_D2Q9.
Definition push_ops (s : system) : solver_ops fields (nat -> nat -> R) :=
  dg_ops BGKCollision BGKEquilibrium (make_genData pushed (Some unitF) (stencil_of Stencil_D2Q9 1) 1 1 1) (stencil_of Stencil_D2Q9 1) 1 eight 8 s (fun f => f).
Lemma even_collide s x : even (fl_f x) -> exists y, so_collide (push_ops s) x = Ok y /\ even (fl_f y).
Proof.
  intros (E & P & U). set (gd := make_genData pushed (Some unitF) (stencil_of Stencil_D2Q9 1) 1 1 1). cbn [push_ops dg_ops cfd_ops so_collide]. fold gd.
  assert (Run : forall f u, (forall i, (i < 9)%nat -> f i = E i) -> exists o, collide_node BGKCollision BGKEquilibrium gd false f u = Ok o /\
    no_rho o = mass (stencil_of Stencil_D2Q9 1) E /\ mass (stencil_of Stencil_D2Q9 1) (no_f o) = mass (stencil_of Stencil_D2Q9 1) E).
  { intros f u Hf. assert (M : mass (stencil_of Stencil_D2Q9 1) f = mass (stencil_of Stencil_D2Q9 1) E) by (apply sumf_ext; exact Hf).
    destruct (force_runs BGKCollision BGKEquilibrium pushed Stencil_D2Q9 1 1 1 unitF f u eq_refl (wsetup _ _ _) eq_refl (or_intror eq_refl)) as [o Ho]; [unfold dense; rewrite M; lra|reflexivity|].
    exists o. split; [exact Ho|]. destruct (exact_ok BGKCollision BGKEquilibrium pushed Stencil_D2Q9 1 1 1 unitF f u o eq_refl (wsetup _ _ _) eq_refl ltac:(discriminate) eq_refl Ho) as ([A _] & B & _).
    rewrite A, B, M. auto. }
  destruct (all_runs BGKCollision BGKEquilibrium gd false eight x eight_nodup) as [y Ey].
  - discriminate.
  - intros n Hn. destruct (Run (fl_f x n) (fl_u x n)) as (o & A & B & _). { intros i Hi. apply U; [apply eight_all; exact Hn|exact Hi]. }
    exists o. split; [exact A|]. rewrite B. exact P.
  - exists y. split; [exact Ey|]. destruct (all_node_by_node BGKCollision BGKEquilibrium gd false eight x y eight_nodup Ey) as [A _].
    destruct (A 0%nat) as (o0 & E0 & F0 & _); [left; reflexivity|]. exists (fl_f y 0%nat). split.
    + rewrite F0. destruct (Run (fl_f x 0%nat) (fl_u x 0%nat)) as (o & Ho & _ & B). { intros i Hi. apply U; [lia|exact Hi]. } rewrite E0 in Ho. injection Ho as ->. rewrite B. exact P.
    + intros n i Hn Hi. destruct (A n (proj2 (eight_all n) Hn)) as (o & Eo & F & _). rewrite F, F0.
      refine (bgk_same BGKEquilibrium gd _ _ _ _ _ _ _ Eo E0 i Hi). intros j Hj. change (j < 9)%nat in Hj. rewrite (U n j Hn Hj), (U 0%nat j ltac:(lia) Hj). reflexivity.
Qed.
Lemma even_keeps s : reassemble (strip false) (stencil_of Stencil_D2Q9 1) false still two empty_system = Ok s -> keeps (push_ops s) (fun x => even (fl_f x)).
Proof.
  intros Es. assert (St : forall h f, even f -> even (dg_stream 8 9 s h f)).
  { intros h f (E & P & U). exists E. split; [exact P|].
    refine (uniform_stream (strip false) (fun i => i) strip_fd Stencil_D2Q9 1 still two 8 eq_refl (strip_good false) (periodic_supported still) (strip_numbers false) s Es pushed 1 1 (wsetup _ _ _) ltac:(lia) E _ h f U).
    intros cl g b u p a Hc Hg _ _ Eb. destruct (strip_periodic cl g Hc Hg) as (c' & f' & E'). congruence. }
  repeat split.
  - intros x. apply even_collide.
  - intros h x. apply St.
  - intros h x. apply St.
  - intros x H. exact H.
  - intros p x [].
Qed.

(** [steps] iterations of a fluid that starts with density 1 in the resting population, pushed with a unit force. *)
Lemma push_run steps : (steps < 1000)%nat -> exists s s1 tr, reassemble (strip false) (stencil_of Stencil_D2Q9 1) false still two empty_system = Ok s /\
  run (dg_c steps) (push_ops s) (S steps) (fresh {| fl_f := fun _ => rest; fl_rho := fun _ => 1; fl_u := fun _ _ => 0 |} 1) = Some (Ok (s1, tr)) /\ sv_i s1 = steps.
Proof.
  intros Hst. destruct (assembles (strip false) (fun i => i) strip_fd Stencil_D2Q9 1 still two eq_refl ltac:(lra) (strip_good false) (periodic_supported still) false empty_system) as (s & Es).
  set (s0 := fresh _ 1). set (c := dg_c steps).
  assert (Hv : valid_intervals c) by (repeat split; cbn; lia).
  destruct (run_runs c (push_ops s) _ Hv (even_keeps s Es) s0 eq_refl) as (s1 & tr & E & _).
  { exists rest. split; [|reflexivity]. unfold mass. cbn. lra. }
  exists s, s1, tr. split; [exact Es|]. change (sv_start s0) with 0%nat in E. change (rc_steps c) with steps in E. rewrite Nat.sub_0_r in E. split; [exact E|].
  destruct (run_final c (push_ops s) _ s0 s1 tr (or_intror (fun _ _ => eq_refl)) (Rle_refl 0) Rle_0_1 E) as [Q1 Q2].
  destruct (run_steps _ _ _ _ _ _ E) as (Q3 & _).
  change (sv_start s0) with 0%nat in *. change (sv_time s0) with 0 in *. change (sv_dt s0) with 1 in *. change (rc_steps c) with steps in *. change (rc_end_time c) with 1000 in *.
  destruct (Nat.lt_trichotomy (sv_i s1) steps) as [H|[H|H]]; [|exact H|].
  - exfalso. destruct Q1 as [Q1|Q1]; [lia|]. rewrite Nat.sub_0_r in Q1.
    assert (H1 : INR (sv_i s1) < INR 1000) by (apply lt_INR; lia).
    rewrite (INR_IZR_INZ 1000) in H1. change (Z.of_nat 1000) with 1000%Z in H1. lra.
  - exfalso. apply (Q2 steps); [lia|left; lia].
Qed.

(** The data of checkpoints of these runs are uniform. *)
Lemma even_evolve s steps : keeps (push_ops s) (fun x => even (fl_f x)) -> forall k i t dt x y, even (fl_f x) -> evolve (dg_c steps) (push_ops s) k i t dt x = Ok y -> even (fl_f y).
Proof.
  intros K. induction k as [|k IH]; intros i t dt x y Hx E.
  - cbn [evolve] in E. injection E as <-. exact Hx.
  - cbn [evolve] in E. unfold filtered in E. cbn [dg_c rc_filtering andb] in E.
    destruct K as (K1 & K2 & K3 & _ & _).
    destruct (K1 (advected (dg_c steps) (push_ops s) t dt x)) as (z & Ez & Hz).
    { unfold advected. cbn [dg_c rc_semi_lagrangian]. apply K2. exact Hx. }
    rewrite Ez in E. cbn [obind] in E. exact (IH _ _ _ _ _ Hz E).
Qed.
Lemma push_restart : exists s s1 tr m stat d, reassemble (strip false) (stencil_of Stencil_D2Q9 1) false still two empty_system = Ok s /\
    run (dg_c 3) (push_ops s) 4 (fresh {| fl_f := fun _ => rest; fl_rho := fun _ => 1; fl_u := fun _ _ => 0 |} 1) = Some (Ok (s1, tr)) /\ In (EvCheckpoint m stat d) tr /\
    exists s2 tr', run (dg_c 3) (push_ops s) 4 (restarted (printed stat) (restored_fields (stencil_of Stencil_D2Q9 1) d) 1) = Some (Ok (s2, tr')).
Proof.
  destruct (push_run 3) as (s & s1 & tr & Es & E & Hi); [lia|]. exists s, s1, tr.
  destruct (run_checkpoints (dg_c 3) (push_ops s) _ _ _ _ E) as [Hcp _].
  assert (Hin : In 1%nat (checkpoints_of tr)).
  { apply Hcp. cbn [fresh sv_start]. rewrite Hi. split; [lia|]. unfold checkpoint_due. cbn [dg_c rc_checkpoint_interval rc_output_off]. split; [left; reflexivity|].
    split; [|split; [discriminate|left; reflexivity]]. cbn [INR]. assert (1 <= 10^8) by (apply pow_R1_Rle; lra). lra. }
  unfold checkpoints_of in Hin. apply in_flat_map in Hin. destruct Hin as (e & He1 & He2). destruct e as [| | | | | |m stat d| |]; try contradiction.
  destruct He2 as [->|[]]. exists 1%nat, stat, d. split; [exact Es|]. split; [exact E|]. split; [exact He1|].
  destruct (run_evolution (dg_c 3) (push_ops s) _ _ _ _ (or_intror (fun _ _ => eq_refl)) eq_refl E) as (y & Hy & _ & HF).
  destruct (HF 1%nat stat d He1) as (E1 & _ & _ & _ & xn & Ex & Ed).
  assert (Hv : valid_intervals (dg_c 3)) by (repeat split; cbn; lia).
  assert (K := even_keeps s Es).
  destruct (proj1 K {| fl_f := fun _ => rest; fl_rho := fun _ => 1; fl_u := fun _ _ => 0 |}) as (y' & Hy' & Py). { exists rest. split; [|reflexivity]. unfold mass. cbn. lra. }
  cbn [fresh sv_x] in Hy. rewrite Hy in Hy'. injection Hy' as <-.
  assert (Pd : even d) by (rewrite Ed; exact (even_evolve s 3 K _ _ _ _ _ _ Py Ex)).
  destruct (run_runs (dg_c 3) (push_ops s) _ Hv K (restarted (printed stat) (restored_fields (stencil_of Stencil_D2Q9 1) d) 1) eq_refl Pd) as (s2 & tr' & E2 & _).
  exists s2, tr'. cbn [restarted printed sv_start cs_iteration dg_c rc_steps] in E2. rewrite E1 in E2. apply (run_more_fuel (dg_c 3) (push_ops s) 3). exact E2.
Qed.

(** After one iteration there have been two kicks. *)
Lemma one_kick_more : exists s s1 tr x0, let st := stencil_of Stencil_D2Q9 1 in let content := content (strip false) (fun i => i) two in
  reassemble (strip false) st false still two empty_system = Ok s /\ run (dg_c 1) (push_ops s) 2 (fresh x0 1) = Some (Ok (s1, tr)) /\ sv_time s1 = 1 /\
  content (fun n => momentum st (fl_f (sv_x s1) n) 0) <> content (fun n => momentum st (fl_f x0 n) 0) + sv_time s1 * (unitF 0 * content (fun _ => 1)).
Proof.
  destruct (push_run 1) as (s & s1 & tr & Es & E & Hi); [lia|]. eexists s, s1, tr, _. split; [exact Es|]. split; [exact E|].
  destruct (run_time (dg_c 1) (push_ops s) _ _ _ _ (or_intror (fun _ _ => eq_refl)) E) as (T & _).
  cbn [fresh sv_time sv_start sv_dt] in T. rewrite Hi in T. cbn [Nat.sub INR] in T. split; [lra|].
  assert (Hf : force_handled pushed (Some unitF)) by (split; [discriminate|right; reflexivity]).
  destruct (whole_momentum (strip false) (fun i => i) strip_fd Stencil_D2Q9 1 still two 8 s BGKCollision BGKEquilibrium pushed (Some unitF) 1 1 eight (fun f => f) (dg_c 1) eq_refl eq_refl (strip_good false)
    strip_periodic (strip_numbers false) Es (wsetup _ _ _) eq_refl Hf eight_nodup (fun n H => proj2 (eight_all n) H) eq_refl eq_refl eq_refl
    _ (fresh {| fl_f := fun _ => rest; fl_rho := fun _ => 1; fl_u := fun _ _ => 0 |} 1) _ _ eq_refl E 0%nat) as [A _]; [cbn; lia|].
  cbn [fresh sv_x sv_start] in A. rewrite A, Hi, T, strip_volume. cbn [fl_f Nat.sub INR kick pushed wcfg cc_forcing]. change (unitF 0) with 1. lra.
Qed.

(** Density 1 between walls that move along. *)
Lemma moving_example : exists E, equilibrium_populations BGKEquilibrium pushed (stencil_of Stencil_D2Q9 1) 1 1 (fun a => match a with O => 1 | _ => 0 end) 1 E /\
  forall cl f b u p a, In cl two -> (f < 4)%nat -> (p < 2)%nat -> (1 <= a < 9)%nat ->
     at_face (strip true) cl f = Outside b -> sliding 1 b = Some u -> E a - E (opposite S9 a) = wall_shift (strip true) S9 (u (face_point (strip true) cl f p)) a.
Proof.
  eexists. split; [eexists; split; [reflexivity|intros i _; reflexivity]|].
  intros cl f b u p a _ _ _ Ha _ Eu. injection Eu as <-. unfold wall_shift. cbn [strip sp_dim sumf]. rewrite !e9_value by lia.
  change (BGKEquilibrium_calc (unscale (stencil_of Stencil_D2Q9 1) 1) 1) with (BGKEquilibrium_2_9 (unscale (stencil_of Stencil_D2Q9 1) 1) 1).
  assert (C : st_cs2 (unscale (stencil_of Stencil_D2Q9 1) 1) = 1 / 3) by (cbn [unscale st_cs2 stencil_of D2Q9]; field).
  assert (C' : st_cs2 S9 = 1 / 3) by (cbn [st_cs2 stencil_of D2Q9]; field).
  rewrite C'. do 9 (destruct a as [|a]; [first [lia|unfold BGKEquilibrium_2_9; rewrite C; lit9; cbn [e9z nth opposite st_opp stencil_of D2Q9]; unfold opposite; cbn; field]|]). lia.
Qed.
