(** A witness against restart equivalence; lemmas about checkpoint files. *)
From Coq Require Import QArith Qreals.
From Verif Require Import Prelude StencilData ModelStencils ModelConfigNames ModelEquilibria ModelCollision ModelRun ModelCheckpoint
  SpecCollision SpecSetup SpecCollideAll SpecRun SpecCheckpoint BigSum ProofCollideNode ProofCollideAll ProofPhysical ProofRun ProofRun2 ProofRestart ProofCheckpoint.
Open Scope R_scope.

(** ** Runs succeed if the collision does *)
Section Succeeds.
  Context {X D : Type}.
  Variables (c : run_config) (o : solver_ops X D) (P : X -> Prop).
  Hypothesis (Hv : valid_intervals c) (HP : keeps o P).

  Lemma processors_keep : forall l x, (forall p, In p l -> In p (so_processors o)) -> P x -> P (fold_left (fun x p => p x) l x).
  Proof.
    destruct HP as (_ & _ & _ & _ & H5). induction l as [|p l IH]; intros x Hl Hx; [exact Hx|]. cbn [fold_left].
    apply IH; [intros; apply Hl; right; assumption|]. apply H5; [apply Hl; left; reflexivity|exact Hx].
  Qed.

  Lemma iterate_runs : forall s, P (sv_x s) -> exists s' ev, iterate c o s = Ok (s', ev) /\ P (sv_x s').
  Proof.
    intros s Hs. unfold iterate. destruct (output_runs c o s (sv_i s) false Hv) as [ev1 ->]. cbn [obind].
    destruct (filter_runs c o (stream c o (next_i s)) Hv) as [[sf evf] Hf]. rewrite Hf. cbn [obind fst].
    assert (Hst : P (sv_x (stream c o (next_i s)))).
    { destruct HP as (_ & H2 & H3 & _ & _). unfold stream. destruct (rc_semi_lagrangian c); cbn [sv_x next_i]; auto. }
    assert (Hsf : P (sv_x sf)).
    { destruct (filter_ok _ _ _ _ _ Hf) as [[-> _]|[-> _]]; [exact Hst|]. cbn [set_x sv_x]. destruct HP as (_ & _ & _ & H4 & _). apply H4. exact Hst. }
    destruct (proj1 HP _ Hsf) as (y & Hy & Py). unfold collide. rewrite Hy. cbn [obind fst snd set_x sv_x].
    eexists; eexists; split; [reflexivity|]. cbn [sv_x]. apply processors_keep; auto.
  Qed.

  Lemma loop_runs : forall fuel s tr, (rc_steps c - sv_i s < fuel)%nat -> P (sv_x s) ->
    exists s' tr', loop c o fuel s tr = Some (Ok (s', tr')) /\ P (sv_x s').
  Proof.
    induction fuel as [|fuel IH]; intros s tr Hf Hs; [lia|]. cbn [loop].
    destruct (stopConditionMet c o s) as [[b s1] ev1] eqn:Est. cbn [fst snd].
    destruct (stop_cases _ _ _ _ _ _ Est) as (_ & Hi & _ & _ & Hx & KK).
    destruct b. { exists s1, (tr ++ ev1). split; [reflexivity|rewrite Hx; exact Hs]. }
    assert (Hlt : (sv_i s < rc_steps c)%nat) by (destruct KK as [(E & _)|(? & _)]; [discriminate|assumption]).
    destruct (iterate_runs s1) as (s2 & ev2 & Hit & Hs2); [rewrite Hx; exact Hs|]. rewrite Hit.
    apply IH; [|exact Hs2]. destruct (iterate_steps _ _ _ _ _ Hit) as (Hi2 & _). lia.
  Qed.

  Lemma run_runs : forall s0, rc_compressible c = false -> P (sv_x s0) ->
    exists s tr, run c o (S (rc_steps c - sv_start s0)) s0 = Some (Ok (s, tr)) /\ P (sv_x s).
  Proof.
    intros s0 Hnc Hs. unfold run. cbv zeta. rewrite Hnc. cbn [andb obind fst].
    destruct (proj1 HP _ Hs) as (y & Hy & Py). unfold collide. cbn [sv_x]. rewrite Hy. cbn [obind fst snd].
    match goal with |- context [loop c o ?n ?s ?t] => destruct (loop_runs n s t) as (s4 & tr4 & El & P4) end.
    { cbn [set_x sv_i]. lia. } { exact Py. }
    rewrite El. destruct (output_runs c o s4 (sv_i s4) true Hv) as [ev' ->]. eexists; eexists; split; [reflexivity|exact P4].
  Qed.
End Succeeds.

(** more fuel changes nothing *)
Section Fuel.
  Context {X D : Type}.
  Variables (c : run_config) (o : solver_ops X D).
  Lemma loop_more_fuel : forall fuel s tr r, loop c o fuel s tr = Some r -> loop c o (S fuel) s tr = Some r.
  Proof.
    induction fuel as [|fuel IH]; intros s tr r; [discriminate|]. intro E. cbn [loop] in E. cbn [loop].
    destruct (fst (fst (stopConditionMet c o s))); [exact E|].
    destruct (iterate c o (snd (fst (stopConditionMet c o s)))) as [[s2 ev]| |]; [apply IH; exact E|exact E|exact E].
  Qed.
  Lemma run_more_fuel : forall fuel s0 r, run c o fuel s0 = Some r -> run c o (S fuel) s0 = Some r.
  Proof.
    intros fuel s0 r. unfold run. cbv zeta. destruct (obind _ _) as [[s3 ev]| |]; auto.
    destruct (loop c o fuel s3 ev) as [q|] eqn:E; [|discriminate]. rewrite (loop_more_fuel _ _ _ _ E). auto.
  Qed.
End Fuel.

(** ** C20: two nodes, periodic, fluid at rest with two different densities *)

(** directions of D2Q9 with e_x = 0 *)
Definition still (i : nat) : bool := match i with 0%nat | 2%nat | 4%nat => true | _ => false end.
Lemma still_ok : forall i, (i < 9)%nat -> still i = true <-> st_e (stencil_of Stencil_D2Q9 1) i 0 = 0.
Proof.
  intros i Hi. cbn [stencil_of D2Q9 st_e].
  do 9 (destruct i as [|i]; [unfold tbl, tblQ; cbn [nth D2Q9_dir still]; unfold Q2R; cbn [QArith_base.Qnum QArith_base.Qden]; split; intro H; try discriminate; first [reflexivity | field | exfalso; lra]|]). lia.
Qed.
Definition swap_advect (t : R) (f : nat -> nat -> R) (n i : nat) : R := if still i then f n i else f (1 - n)%nat i.

Definition w_gd : genData := make_genData (wcfg NO_FORCING RELAX_FULL DELLAR_D2Q9) None (stencil_of Stencil_D2Q9 1) 1 (1/2) 1.
Definition w_ops : solver_ops fields (nat -> nat -> R) :=
  cfd_ops BGKCollision BGKEquilibrium w_gd (stencil_of Stencil_D2Q9 1) 1 [0; 1]%nat swap_advect (fun f => f).
Definition w_c (steps interval : nat) : run_config :=
  {| rc_compressible := false; rc_semi_lagrangian := true; rc_steps := steps; rc_end_time := 1000; rc_threshold := 0;
     rc_output_off := false; rc_solution_interval := 1; rc_table_interval := 1; rc_checkpoint_interval := interval;
     rc_filtering := false; rc_filter_interval := 1; rc_order := 1; rc_init := EQUILIBRIUM; rc_init_residual := 0; rc_init_steps := 0 |}.

Definition wt9 (i : nat) : R := st_w (stencil_of Stencil_D2Q9 1) i.
(** node with populations w_i a (standing directions) and w_i b *)
Definition node_is (f : nat -> R) (a b : R) : Prop := forall i, (i < 9)%nat -> f i = wt9 i * (if still i then a else b).

Ltac lit9 := unfold wt9, tbl, tblQ, wtbl; cbn [stencil_of D2Q9 st_w]; unfold wtbl; cbn [nth D2Q9_dir D2Q9_wt still]; unfold Q2R; cbn [QArith_base.Qnum QArith_base.Qden].

Lemma node_collides : forall f u a b, node_is f a b -> 1 <= a <= 2 -> 1 <= b <= 2 ->
  exists o, collide_node BGKCollision BGKEquilibrium w_gd false f u = Ok o /\ no_rho o = (2 * a + b) / 3 /\
    node_is (no_f o) ((a + (2 * a + b) / 3) / 2) ((b + (2 * a + b) / 3) / 2).
Proof.
  intros f u a b Hf Ha Hb.
  assert (Hrho : sumf 9 f = (2 * a + b) / 3).
  { cbn [sumf]. rewrite !Hf by lia. lit9. field. }
  assert (Hpos : sumf 9 f > 0) by (rewrite Hrho; lra).
  assert (Hd : 1 / 10^10 <= sumf 9 f). { rewrite Hrho. apply Rle_trans with 1; [|lra]. apply Rmult_le_reg_r with (10^10); [apply pow_lt; lra|]. unfold Rdiv. rewrite Rmult_assoc, Rinv_l by (apply pow_nonzero; lra). assert (1 <= 10^10) by (apply pow_R1_Rle; lra). lra. }
  unfold collide_node. change (st_Q (gd_L _)) with 9%nat. rewrite (density_ok 9 f Hd). cbn [obind w_gd make_genData gd_force fst snd relax eq_calc].
  eexists. split; [reflexivity|]. cbn [no_rho no_f]. split; [exact Hrho|].
  set (rho := sumf 9 f) in *. clearbody rho.
  intros i Hi. unfold relax_BGK. change (gd_L w_gd) with (unscale (D2Q9 1) 1). change (gd_tau w_gd) with (1/2 / (1 * (1 * 1 / 3)) + 1/2).
  unfold BGKEquilibrium_calc, calculateVelocity. change (is_DQ (unscale (D2Q9 1) 1) 2 9) with true. cbv iota.
  assert (Hv : forall j, (j < 2)%nat -> calculateVelocity_2_9 f rho j = 0).
  { intros j Hj. unfold calculateVelocity_2_9. rewrite !Hf by lia. do 2 (destruct j as [|j]; [lit9; field; lra|]). lia. }
  rewrite (Hf i Hi). unfold BGKEquilibrium_2_9. cbv zeta beta. rewrite !Hv by lia. rewrite Hrho. cbn [unscale D2Q9 st_cs2].
  do 9 (destruct i as [|i]; [lit9; field|]). lia.
Qed.

Definition state_is (x : fields) (a0 b0 a1 b1 : R) : Prop := node_is (fl_f x 0%nat) a0 b0 /\ node_is (fl_f x 1%nat) a1 b1.
Definition good (x : fields) : Prop := exists a0 b0 a1 b1, state_is x a0 b0 a1 b1 /\ 1 <= a0 <= 2 /\ 1 <= b0 <= 2 /\ 1 <= a1 <= 2 /\ 1 <= b1 <= 2.

Lemma state_collides : forall x a0 b0 a1 b1, state_is x a0 b0 a1 b1 -> 1 <= a0 <= 2 -> 1 <= b0 <= 2 -> 1 <= a1 <= 2 -> 1 <= b1 <= 2 ->
  exists y, so_collide w_ops x = Ok y /\
    state_is y ((a0 + (2 * a0 + b0) / 3) / 2) ((b0 + (2 * a0 + b0) / 3) / 2) ((a1 + (2 * a1 + b1) / 3) / 2) ((b1 + (2 * a1 + b1) / 3) / 2).
Proof.
  intros x a0 b0 a1 b1 [H0 H1] A0 B0 A1 B1. cbn [w_ops cfd_ops so_collide].
  assert (Hn : NoDup [0; 1]%nat) by (repeat constructor; cbn; intuition discriminate).
  assert (Hten : 1 / 10^10 < 1).
  { apply Rmult_lt_reg_r with (10^10); [apply pow_lt; lra|]. unfold Rdiv. rewrite Rmult_assoc, Rinv_l by (apply pow_nonzero; lra).
    assert (1 < 10^10) by (apply Rlt_pow_R1; [lra|lia]). lra. }
  destruct (node_collides _ (fl_u x 0%nat) _ _ H0 A0 B0) as (o0 & O0 & R0 & F0).
  destruct (node_collides _ (fl_u x 1%nat) _ _ H1 A1 B1) as (o1 & O1 & R1 & F1).
  destruct (all_runs BGKCollision BGKEquilibrium w_gd false [0; 1]%nat x Hn ltac:(discriminate)) as [y Hy].
  { intros n [<-|[<-|[]]]; [exists o0|exists o1]; (split; [assumption|lra]). }
  exists y. split; [exact Hy|]. destruct (all_node_by_node _ _ _ _ _ _ _ Hn Hy) as [Hd _].
  destruct (Hd 0%nat ltac:(left; reflexivity)) as (o0' & O0' & E0 & _). destruct (Hd 1%nat ltac:(right; left; reflexivity)) as (o1' & O1' & E1 & _).
  rewrite O0 in O0'. rewrite O1 in O1'. injection O0' as <-. injection O1' as <-. split; [rewrite E0|rewrite E1]; assumption.
Qed.

Lemma state_advects : forall t x a0 b0 a1 b1, state_is x a0 b0 a1 b1 -> state_is (so_advect w_ops t x) a0 b1 a1 b0.
Proof.
  intros t x a0 b0 a1 b1 [H0 H1]. cbn [w_ops cfd_ops so_advect]. split; intros i Hi; cbn [fl_f]; unfold swap_advect; cbn [Nat.sub].
  - specialize (H0 i Hi). specialize (H1 i Hi). destruct (still i); assumption.
  - specialize (H0 i Hi). specialize (H1 i Hi). destruct (still i); assumption.
Qed.

Lemma w_keeps : keeps w_ops good.
Proof.
  split; [|split; [|split; [|split]]].
  - intros x (a0 & b0 & a1 & b1 & H & A0 & B0 & A1 & B1). destruct (state_collides _ _ _ _ _ H A0 B0 A1 B1) as (y & Hy & Sy).
    exists y. split; [exact Hy|]. do 4 eexists. split; [exact Sy|]. repeat split; lra.
  - intros t x (a0 & b0 & a1 & b1 & H & A0 & B0 & A1 & B1). exists a0, b1, a1, b0. split; [apply state_advects; exact H|auto].
  - intros t x (a0 & b0 & a1 & b1 & H & A0 & B0 & A1 & B1). exists a0, b1, a1, b0. split; [|auto].
    exact (state_advects t x a0 b0 a1 b1 H).
  - intros x (a0 & b0 & a1 & b1 & H & A). exists a0, b0, a1, b1. split; [|exact A]. exact H.
  - intros p x [].
Qed.

(** at rest, density 1 and 2 *)
Definition w_rho (n : nat) : R := match n with O => 1 | _ => 2 end.
Definition w_x0 : fields := {| fl_f := fun n i => wt9 i * w_rho n; fl_rho := w_rho; fl_u := fun _ _ => 0 |}.
Lemma w_x0_is : state_is w_x0 1 1 2 2.
Proof. split; intros i Hi; cbn [w_x0 fl_f w_rho]; destruct (still i); reflexivity. Qed.

Lemma w_step : forall i t dt x a0 b0 a1 b1 steps k y, state_is x a0 b0 a1 b1 ->
  1 <= a0 <= 2 -> 1 <= b0 <= 2 -> 1 <= a1 <= 2 -> 1 <= b1 <= 2 ->
  evolve (w_c steps k) w_ops 1 i t dt x = Ok y ->
  state_is y ((a0 + (2 * a0 + b1) / 3) / 2) ((b1 + (2 * a0 + b1) / 3) / 2) ((a1 + (2 * a1 + b0) / 3) / 2) ((b0 + (2 * a1 + b0) / 3) / 2).
Proof.
  intros i t dt x a0 b0 a1 b1 steps k y H A0 B0 A1 B1 E. cbn [evolve] in E.
  unfold filtered, advected in E. cbn [w_c rc_filtering rc_semi_lagrangian andb] in E.
  destruct (state_collides _ _ _ _ _ (state_advects t _ _ _ _ _ H) A0 B1 A1 B0) as (z & Hz & Sz).
  rewrite Hz in E. cbn [obind w_ops cfd_ops so_processors fold_left] in E. injection E as <-. exact Sz.
Qed.

Lemma restart_bad : exists k q gd st s nodes advect filt c x0 s1 tr1 stat d s2 tr2,
  let o := cfd_ops k q gd st s nodes advect filt in
  valid_intervals c /\ rc_compressible c = false /\ rc_threshold c <= 0 /\
  run c o 3 (fresh x0 1) = Some (Ok (s1, tr1)) /\ In (EvCheckpoint 1%nat stat d) tr1 /\ cs_time stat = 1 /\
  run c o 3 (restarted (printed stat) (restored_fields st d) 1) = Some (Ok (s2, tr2)) /\
  sv_i s1 = 2%nat /\ sv_i s2 = 2%nat /\ sv_time s1 = sv_time s2 /\
  exists n, In n nodes /\ fl_f (sv_x s1) n 0%nat <> fl_f (sv_x s2) n 0%nat.
Proof.
  set (c := w_c 2 1).
  assert (Hv : valid_intervals c) by (repeat split; cbn; lia).
  assert (Hdt : constant_step c w_ops) by (left; reflexivity).
  destruct (run_runs c w_ops good Hv w_keeps (fresh w_x0 1) eq_refl) as (s1 & tr1 & E1 & _).
  { exists 1, 1, 2, 2. split; [exact w_x0_is|]. repeat split; lra. }
  change (S (rc_steps c - sv_start (fresh w_x0 1))) with 3%nat in E1.
  assert (Hi1 : sv_i s1 = 2%nat).
  { destruct (run_final c w_ops 3 (fresh w_x0 1) s1 tr1 Hdt (Rle_refl 0) Rle_0_1 E1) as [Q1 Q2]. cbn [fresh sv_start sv_time sv_dt c w_c rc_steps rc_end_time] in Q1, Q2.
    destruct (Nat.lt_trichotomy (sv_i s1) 2) as [H|[H|H]]; [|exact H|].
    - exfalso. destruct Q1 as [Q1|Q1]; [lia|]. assert (INR (sv_i s1 - 0) <= INR 2) by (apply le_INR; lia). change (INR 2) with (1 + 1) in H0. lra.
    - exfalso. apply (Q2 2%nat); [lia|left; lia]. }
  destruct (run_checkpoints c w_ops 3 _ _ _ E1) as [Hcp _].
  assert (Hin : In 1%nat (checkpoints_of tr1)).
  { apply Hcp. cbn [fresh sv_start]. split; [lia|]. unfold checkpoint_due. cbn [c w_c rc_checkpoint_interval rc_output_off]. split; [left; reflexivity|].
    split; [|split; [discriminate|left; reflexivity]]. cbn [INR]. assert (1 <= 10^8) by (apply pow_R1_Rle; lra). lra. }
  unfold checkpoints_of in Hin. apply in_flat_map in Hin. destruct Hin as (e & He1 & He2). destruct e; try contradiction. destruct He2 as [->|[]].
  destruct (run_evolve c w_ops 3 _ _ _ Hdt eq_refl E1) as (y & Hy & _ & Hev & HF).
  rewrite Forall_forall in HF. specialize (HF _ He1). destruct HF as (_ & Hsi & Hst & _ & _ & xn & V & Hd & C).
  cbn [fresh sv_start sv_time sv_dt sv_x] in *. cbn [Nat.sub] in V. rewrite Hi1 in C. cbn [Nat.sub] in C.
  destruct (state_collides _ _ _ _ _ w_x0_is) as (y' & Hy' & Sy); try lra. rewrite Hy in Hy'. injection Hy' as <-.
  pose proof (w_step _ _ _ _ _ _ _ _ _ _ _ Sy ltac:(lra) ltac:(lra) ltac:(lra) ltac:(lra) V) as Sn.
  pose proof (w_step _ _ _ _ _ _ _ _ _ _ _ Sn ltac:(lra) ltac:(lra) ltac:(lra) ltac:(lra) C) as S1.
  assert (Hts : cs_time st = 1) by (rewrite Hst; cbn [Nat.sub INR]; ring).
  assert (Hpt : print_read (cs_time st) = 1) by (rewrite Hts; exact time_kept_1).
  set (s0' := restarted (printed st) (restored_fields (stencil_of Stencil_D2Q9 1) d) 1).
  assert (Sr : state_is (sv_x s0') (((1 + (2 * 1 + 1) / 3) / 2 + (2 * ((1 + (2 * 1 + 1) / 3) / 2) + (2 + (2 * 2 + 2) / 3) / 2) / 3) / 2)
            (((2 + (2 * 2 + 2) / 3) / 2 + (2 * ((1 + (2 * 1 + 1) / 3) / 2) + (2 + (2 * 2 + 2) / 3) / 2) / 3) / 2)
            (((2 + (2 * 2 + 2) / 3) / 2 + (2 * ((2 + (2 * 2 + 2) / 3) / 2) + (1 + (2 * 1 + 1) / 3) / 2) / 3) / 2)
            (((1 + (2 * 1 + 1) / 3) / 2 + (2 * ((2 + (2 * 2 + 2) / 3) / 2) + (1 + (2 * 1 + 1) / 3) / 2) / 3) / 2)).
  { subst d. exact Sn. }
  destruct (run_runs c w_ops good Hv w_keeps s0' eq_refl) as (s2 & tr2 & E2 & _).
  { do 4 eexists. split; [exact Sr|]. repeat split; lra. }
  replace (S (rc_steps c - sv_start s0')) with 2%nat in E2 by (cbn [s0' restarted printed cs_iteration sv_start c w_c rc_steps]; rewrite Hsi; reflexivity).
  assert (Hi2 : sv_i s2 = 2%nat).
  { destruct (run_final c w_ops 2 s0' s2 tr2 Hdt (Rle_refl 0) Rle_0_1 E2) as [Q1 Q2].
    destruct (run_steps c w_ops 2 _ _ _ E2) as (Q3 & _). cbn [s0' restarted printed cs_iteration cs_time sv_start sv_time sv_dt c w_c rc_steps rc_end_time] in Q1, Q2, Q3. rewrite Hsi, Hpt in *.
    destruct (Nat.lt_trichotomy (sv_i s2) 2) as [H|[H|H]]; [|exact H|].
    - exfalso. destruct Q1 as [Q1|Q1]; [lia|]. assert (INR (sv_i s2 - 1) <= INR 2) by (apply le_INR; lia). change (INR 2) with (1 + 1) in H0. lra.
    - exfalso. apply (Q2 2%nat); [lia|left; lia]. }
  destruct (run_evolve c w_ops 2 _ _ _ Hdt eq_refl E2) as (y2 & Hy2 & _ & Hev2 & _).
  destruct (state_collides _ _ _ _ _ Sr) as (y2' & Hy2' & Sy2); try lra. rewrite Hy2 in Hy2'. injection Hy2' as <-.
  change (sv_start s0') with (cs_iteration st) in Hev2. rewrite Hsi, Hi2 in Hev2. cbn [Nat.sub] in Hev2.
  pose proof (w_step _ _ _ _ _ _ _ _ _ _ _ Sy2 ltac:(lra) ltac:(lra) ltac:(lra) ltac:(lra) Hev2) as S2.
  destruct (run_time c w_ops 3 _ _ _ Hdt E1) as (T1 & _). destruct (run_time c w_ops 2 _ _ _ Hdt E2) as (T2 & _).
  exists BGKCollision, BGKEquilibrium, w_gd, (stencil_of Stencil_D2Q9 1), 1, [0; 1]%nat, swap_advect, (fun f => f), c, w_x0, s1, tr1, st, d, s2, tr2.
  split; [exact Hv|split; [reflexivity|split; [exact (Rle_refl 0)|split; [exact E1|split; [exact He1|split; [exact Hts|]]]]]].
  split; [apply (run_more_fuel c w_ops 2); exact E2|].
  split; [exact Hi1|split; [exact Hi2|split]].
  - rewrite T1, T2. cbn [fresh s0' restarted printed cs_iteration cs_time sv_start sv_time sv_dt]. rewrite Hi1, Hi2, Hsi, Hpt. cbn [Nat.sub INR]. ring.
  - exists 0%nat. split; [left; reflexivity|]. destruct S1 as [S1 _]. destruct S2 as [S2 _]. rewrite (S1 0%nat), (S2 0%nat) by lia. cbn [still].
    lit9. lra.
Qed.

(** ** Restart from what the files contain *)
Section Restarted.
  Context {X D : Type}.
  Variables (c : run_config) (o : solver_ops X D).
  Lemma run_evolution : forall fuel s0 s tr,
    constant_step c o -> rc_compressible c = false -> run c o fuel s0 = Some (Ok (s, tr)) ->
    exists y, so_collide o (sv_x s0) = Ok y /\
      evolve c o (sv_i s - sv_start s0) (sv_start s0) (sv_time s0) (sv_dt s0) y = Ok (sv_x s) /\
      forall n st d, In (EvCheckpoint n st d) tr ->
        cs_iteration st = n /\ cs_time st = sv_time s0 + INR (n - sv_start s0) * sv_dt s0 /\
        cs_order st = rc_order c /\ cs_scaling st = so_scaling o /\
        exists xn, evolve c o (n - sv_start s0) (sv_start s0) (sv_time s0) (sv_dt s0) y = Ok xn /\ d = so_data o xn.
  Proof.
    intros fuel s0 s tr Hdt Hnc E. destruct (run_evolve _ _ _ _ _ _ Hdt Hnc E) as (y & Hy & _ & Hev & HF).
    exists y. split; [exact Hy|split; [exact Hev|]]. intros n st d Hin. rewrite Forall_forall in HF.
    destruct (HF _ Hin) as (_ & A & B & C & F & xn & G & K & _). repeat split; auto. exists xn. split; assumption.
  Qed.
  Lemma residual_fields : forall fuel s0 s tr,
    constant_step c o -> rc_compressible c = false -> run c o fuel s0 = Some (Ok (s, tr)) ->
    exists y, so_collide o (sv_x s0) = Ok y /\
      forall i u r, In (i, u, r) (residuals_of tr) ->
        exists x, evolve c o (i - sv_start s0) (sv_start s0) (sv_time s0) (sv_dt s0) y = Ok x /\ u = so_velocity o x.
  Proof.
    intros fuel s0 s tr Hdt Hnc E. destruct (run_evolve _ _ _ _ _ _ Hdt Hnc E) as (y & Hy & _ & Hev & HF).
    exists y. split; [exact Hy|]. intros i u r Hin. unfold residuals_of in Hin. apply in_flat_map in Hin. destruct Hin as (e & He1 & He2).
    destruct e; try contradiction. destruct He2 as [He2|[]]. inversion He2; subst. rewrite Forall_forall in HF. exact (HF _ He1).
  Qed.
  Lemma restart_evolves : forall fuel s0 s tr n st d fuel' x0 s' tr',
    constant_step c o -> rc_compressible c = false ->
    run c o fuel s0 = Some (Ok (s, tr)) -> In (EvCheckpoint n st d) tr -> so_data o x0 = d ->
    run c o fuel' (restarted (printed st) x0 (sv_dt s0)) = Some (Ok (s', tr')) ->
    exists xn y, so_data o xn = d /\ so_collide o x0 = Ok y /\
      evolve c o (sv_i s - n) n (cs_time st) (sv_dt s0) xn = Ok (sv_x s) /\
      evolve c o (sv_i s' - n) n (print_read (cs_time st)) (sv_dt s0) y = Ok (sv_x s').
  Proof.
    intros fuel s0 s tr n st d fuel' x0 s' tr' Hdt Hnc E Hin Hd E'.
    destruct (run_evolve _ _ _ _ _ _ Hdt Hnc E) as (y0 & _ & _ & _ & HF). rewrite Forall_forall in HF. destruct (HF _ Hin) as (_ & Hi & _).
    exact (restart_ok c o fuel s0 s tr n st d fuel' (restarted (printed st) x0 (sv_dt s0)) s' tr' Hdt Hnc E Hin Hd Hi eq_refl E').
  Qed.
  Lemma restart_exact : forall fuel s0 s tr n st d fuel' x0 s' tr',
    constant_step c o -> rc_compressible c = false -> rc_threshold c <= 0 -> 0 <= sv_res_u s0 ->
    run c o fuel s0 = Some (Ok (s, tr)) -> In (EvCheckpoint n st d) tr -> so_data o x0 = d ->
    print_read (cs_time st) = cs_time st ->
    (forall y0 x, so_collide o (sv_x s0) = Ok y0 ->
       evolve c o (n - sv_start s0) (sv_start s0) (sv_time s0) (sv_dt s0) y0 = Ok x -> so_collide o x0 = Ok x) ->
    run c o fuel' (restarted (printed st) x0 (sv_dt s0)) = Some (Ok (s', tr')) ->
    sv_i s' = sv_i s /\ sv_time s' = sv_time s /\ sv_x s' = sv_x s.
  Proof.
    intros fuel s0 s tr n st d fuel' x0 s' tr' Hdt Hnc Hth Hr E Hin Hd Hpt Hid E'.
    destruct (run_evolve _ _ _ _ _ _ Hdt Hnc E) as (y0 & _ & _ & _ & HF). rewrite Forall_forall in HF. destruct (HF _ Hin) as (_ & Hi & _).
    exact (restart_same c o fuel s0 s tr n st d fuel' (restarted (printed st) x0 (sv_dt s0)) s' tr' Hdt Hnc Hth Hr Rle_0_1 E Hin Hd Hi eq_refl Hpt Hid E').
  Qed.
End Restarted.
