(** PropCompressible: tolerance of the initial state, continued runs, examples (two cells, D2Q25H, gamma = 7/5). *)
From Verif Require Import Prelude BigSum ModelConfigNames ModelStencils SpecStencils ModelEquilibria ModelCollision ModelRun ModelCheckpoint ModelSemiLagrangian ModelSEDG ModelTimeIntegration
  ModelSimulation ModelCompressible SpecCollision SpecSetup SpecCheckpoint SpecRun SpecSEDG SpecSEDGRun SpecSimulation SpecNear SpecCompressible
  ProofStencils ProofWick ProofEquilibria ProofEqMoments ProofNear ProofNearEq ProofNearCollide ProofCollideAll ProofCompressible ProofRun ProofRun2 ProofRestart ProofRestart2
  ProofSEDGStencil ProofSEDGMesh ProofSEDGRun ProofSimulation ProofSimulation2 ProofSimulationEx ProofCompressibleRun ProofCompressibleRun2 ProofCompressibleRun3 ProofCompressibleUniform ProofCompressibleRestart.
Local Open Scope R_scope.

(** ** Initial state on stencils with literal tables *)
Lemma initial_near t s gamma nodes x n : (6 <= high_order t)%nat -> s <> 0 -> gamma <> 1 -> In n nodes ->
  let st := stencil_of t s in let y := initialize gamma st s nodes x in
  let rho := fg_rho x n in let u := fg_u x n in let T := fg_T x n in
  let N := high_tol t * Rabs rho * expansion_size st u T in
  Rabs (mass st (fg_f y n) - rho) <= N /\
  (forall a, (a < st_D st)%nat -> Rabs (momentum st (fg_f y n) a - rho * u a) <= N * Rabs (st_cs st)) /\
  Rabs (energy2 st (fg_f y n) (fg_g y n) - gas_energy2 st gamma rho u T) <= N * st_cs2 st * (INR (st_D st) + Rabs (T * (2 / (gamma - 1) - INR (st_D st)))).
Proof.
  intros H6 Hs Hga Hn st y rho u T N. unfold y, initialize. cbn [fg_f fg_g]. rewrite (proj2 (owned_in n nodes) Hn). fold rho T u.
  set (L := unscale st s). set (e := calcQuarticEquilibrium L rho (fun j => u j / s) T).
  assert (HD : st_D L = 2%nat \/ st_D L = 3%nat) by apply st_dim.
  pose proof (near_min t s) as Hh. pose proof (Nat.le_min_l 7 (high_order t)) as Lh.
  assert (Hfe : forall i, (i < st_Q st)%nat -> e i = QuarticEquilibrium_calc L rho (fun a => u a / s) T i) by (intros; apply calc_quartic; exact HD).
  pose proof (near_q_mass t s Hs _ _ Lh Hh u e rho T Hfe ltac:(lia)) as P0.
  pose proof (fun a => near_q_momentum t s Hs _ _ Lh Hh u e rho T Hfe a ltac:(lia)) as P1.
  pose proof (fun a b => near_q_moment2 t s Hs _ _ Lh Hh u e rho T Hfe a b ltac:(lia)) as P2.
  fold st in P0, P1, P2. fold N in P0, P1, P2.
  assert (Hsq : Rabs (st_cs st) ^ 2 = st_cs2 st).
  { pose proof (s2_c2 t s Hs) as A1. pose proof (cs2_st t s Hs) as A2. fold st in A1, A2. rewrite A2, A1. ring. }
  split; [exact P0|]. split; [exact P1|].
  rewrite energy2_moments.
  replace (mass st (fun j => e j * T * (2 * (1 / (gamma - 1)) - INR (st_D st)))) with (mass st e * (T * (2 / (gamma - 1) - INR (st_D st)))).
  2:{ unfold mass. rewrite <- sumf_scal_r. apply sumf_ext. intros. field. lra. }
  set (k := T * (2 / (gamma - 1) - INR (st_D st))).
  replace (sumf (st_D st) (fun a => moment2 st e a a) + st_cs2 st * (mass st e * k) - gas_energy2 st gamma rho u T)
    with (sumf (st_D st) (fun a => moment2 st e a a - rho * (T * st_cs2 st * delta a a + u a * u a)) + st_cs2 st * k * (mass st e - rho)).
  2:{ rewrite sumf_minus, (sumf_ext (st_D st) (fun a => rho * (T * st_cs2 st * delta a a + u a * u a)) (fun a => rho * T * st_cs2 st + rho * (u a * u a)))
        by (intros; rewrite delta_refl; ring).
      rewrite sumf_plus, sumf_const, sumf_scal. fold (dot (st_D st) u u). unfold gas_energy2, k. field. lra. }
  eapply Rle_trans; [apply Rabs_triang|]. replace (N * st_cs2 st * (INR (st_D st) + Rabs k)) with (INR (st_D st) * (N * st_cs2 st) + st_cs2 st * Rabs k * N) by ring.
  apply Rplus_le_compat.
  - eapply Rle_trans; [apply sumf_abs|]. rewrite <- sumf_const. apply sumf_le. intros a Ha. eapply Rle_trans; [apply (P2 a a Ha Ha)|]. rewrite Hsq. lra.
  - rewrite !Rabs_mult. assert (0 <= st_cs2 st) by (rewrite <- Hsq; apply pow2_ge_0). rewrite (Rabs_right (st_cs2 st)) by lra.
    apply Rmult_le_compat_l; [apply Rmult_le_pos; [assumption|apply Rabs_pos]|exact P0].
Qed.

(** ** Energy across a restart *)
Lemma restored_energy t s gamma f g : s <> 0 -> gamma <> 1 -> let st := stencil_of t s in mass st f <> 0 ->
  energy2 st f (restored_g gamma st s f) - energy2 st f g =
    st_cs2 st * (mass st f * (random_motion st f + (mass st f - 1) * (mass st f - 1) * dot (st_D st) (bulk st f) (bulk st f) / (INR (st_D st) * st_cs2 st)) * (2 / (gamma - 1) - INR (st_D st)) - mass st g).
Proof.
  intros Hs Hga st Hm. rewrite !energy2_moments. unfold st. rewrite (restored_mass t s gamma f Hs Hm).
  replace (2 * (1 / (gamma - 1))) with (2 / (gamma - 1)) by (field; lra). ring.
Qed.
Lemma restored_equilibrium t s gamma nodes x n : order6 t -> s <> 0 -> gamma <> 1 -> In n nodes -> fg_rho x n <> 0 ->
  let st := stencil_of t s in let y := initialize gamma st s nodes x in
  energy2 st (fg_f y n) (restored_g gamma st s (fg_f y n)) - energy2 st (fg_f y n) (fg_g y n) =
    (2 / (gamma - 1) - INR (st_D st)) / INR (st_D st) * fg_rho x n * (fg_rho x n - 1) ^ 2 * dot (st_D st) (fg_u x n) (fg_u x n).
Proof.
  intros Ho Hs Hga Hn Hr st y.
  assert (P : initial_pair st s gamma (fg_rho x n) (fg_u x n) (fg_T x n) (fg_f y n) (fg_g y n)).
  { intros i Hi. unfold y, initialize. cbn [fg_f fg_g]. rewrite (proj2 (owned_in n nodes) Hn). split; reflexivity. }
  destruct (pair_random t s gamma _ _ _ _ _ Ho Hs Hga Hr P) as (A & B & C). destruct (pair_carries t s gamma _ _ _ _ _ Ho Hs Hga P) as (M & _).
  fold st in A, B, C, M.
  pose proof (restored_energy t s gamma (fg_f y n) (fg_g y n) Hs Hga) as E. cbv zeta in E. fold st in E. rewrite E by (rewrite M; exact Hr). rewrite A, B, M.
  replace (dot (st_D st) (bulk st (fg_f y n)) (bulk st (fg_f y n))) with (dot (st_D st) (fg_u x n) (fg_u x n)) by (apply sumf_ext; intros a Ha; rewrite (C a Ha); reflexivity).
  assert (Hcs := cs2_neq0 t s Hs). fold st in Hcs.
  assert (INR (st_D st) <> 0) by (unfold st; destruct (st_dim t s) as [-> | ->]; cbn; lra). field. repeat split; try assumption. lra.
Qed.

(** A run continued from iteration 2 or later. *)
Section Continued.
  Context {cell : Type} (S : space cell) (qn : nat -> nat) (fd : nat -> nat -> nat) (t : StencilType) (scaling : R)
          (velocity : nat -> option (point -> point)) (cells : list cell) (N : nat) (s : system) (cfg : collision_config) (nu dt : R)
          (nodes : list nat) (filt : (nat -> nat -> R) -> nat -> nat -> R) (c : run_config).
  Notation st := (stencil_of t scaling).
  Notation ga := (cc_heat_gamma cfg).
  Notation o := (dg_ops_g QuarticEquilibrium (make_genData cfg None st scaling nu dt) ga st scaling nodes N s filt).
  Lemma continued_run : sp_dim S = st_D st -> order6 t -> good_mesh S qn fd cells -> no_walls S cells -> numbers S cells N ->
    reassemble S st false velocity cells empty_system = Ok s -> valid_setup cfg scaling nu dt -> ga <> 1 ->
    NoDup nodes -> (forall n, (n < N)%nat -> In n nodes) -> nodes <> [] -> rc_semi_lagrangian c = false -> rc_filtering c = false -> rc_init c = EQUILIBRIUM ->
    forall known f x stat fuel s1 tr, restored_fields_g ga st scaling known nodes f = Ok x -> (1 < cs_iteration stat)%nat -> (forall n, (n < N)%nat -> mass st (f n) <> 0) ->
    run c o fuel (restarted stat x dt) = Some (Ok (s1, tr)) ->
    content S qn cells (fg_rho (sv_x s1)) = content S qn cells (fun n => mass st (f n)) /\
    (forall a, (a < st_D st)%nat -> content S qn cells (fun n => fg_rho (sv_x s1) n * fg_u (sv_x s1) n a) = content S qn cells (fun n => momentum st (f n) a)) /\
    content S qn cells (fun n => gas_energy2 st ga (fg_rho (sv_x s1) n) (fg_u (sv_x s1) n) (fg_T (sv_x s1) n))
      = content S qn cells (fun n => energy2 st (f n) (restored_g ga st scaling (f n))).
  Proof.
    intros Hd Ho G Nw HN Es Hv Hga Hnd Hown Hne Hsl Hfl Hin known f x stat fuel s1 tr Ex Hst Hm E.
    assert (Hs : scaling <> 0) by (destruct Hv; lra).
    assert (F : first_state c o (restarted stat x dt) = x).
    { unfold first_state. cbn [restarted sv_start sv_x]. apply Nat.leb_gt in Hst. rewrite Hst, Bool.andb_false_r. reflexivity. }
    assert (Sup : supported S velocity cells).
    { intros cl g b Hcl Hg Eb. destruct (Nw cl g Hcl Hg) as (c' & f' & E'). congruence. }
    assert (V := fun n Hn => restored_values t scaling ga known nodes f Hs Hga x Hne Ex n (Hm n Hn)).
    destruct (fields_kept S qn fd t scaling velocity cells N Hd Ho G Sup HN Nw s Es cfg nu dt Hv Hga nodes filt c Hnd Hown Hsl Hfl Hin fuel (restarted stat x dt) s1 tr eq_refl E
      (fun n => mass st (f n)) (fun n => bulk st (f n)) (fun n => restored_T t scaling ga (f n))) as (A & B & C & _).
    { intros n Hn. rewrite F. apply (V n Hn). }
    split; [exact A|]. split.
    - intros a Ha. rewrite (B a Ha). apply content_ext. intros cl i Hc Hi. unfold bulk. field. apply Hm. apply (proj1 HN cl i Hc Hi).
    - rewrite C. apply content_ext. intros cl i Hc Hi. symmetry. apply (restored_carries t scaling ga _ Hs Hga). apply Hm. apply (proj1 HN cl i Hc Hi).
  Qed.
  (** From iteration 0 or 1: the momentum is lost. *)
  Lemma continued_early : sp_dim S = st_D st -> order6 t -> good_mesh S qn fd cells -> no_walls S cells -> numbers S cells N ->
    reassemble S st false velocity cells empty_system = Ok s -> valid_setup cfg scaling nu dt -> ga <> 1 ->
    NoDup nodes -> (forall n, (n < N)%nat -> In n nodes) -> nodes <> [] -> rc_semi_lagrangian c = false -> rc_filtering c = false -> rc_init c = EQUILIBRIUM -> rc_compressible c = true ->
    forall known f x stat fuel s1 tr, restored_fields_g ga st scaling known nodes f = Ok x -> (cs_iteration stat <= 1)%nat -> (forall n, (n < N)%nat -> mass st (f n) <> 0) ->
    run c o fuel (restarted stat x dt) = Some (Ok (s1, tr)) ->
    forall a, (a < st_D st)%nat -> content S qn cells (fun n => fg_rho (sv_x s1) n * fg_u (sv_x s1) n a) = 0.
  Proof.
    intros Hd Ho G Nw HN Es Hv Hga Hnd Hown Hne Hsl Hfl Hin Hc known f x stat fuel s1 tr Ex Hst Hm E a Ha.
    assert (Hs : scaling <> 0) by (destruct Hv; lra).
    assert (Sup : supported S velocity cells).
    { intros cl g b Hcl Hg Eb. destruct (Nw cl g Hcl Hg) as (c' & f' & E'). congruence. }
    assert (V := fun n Hn => restored_values t scaling ga known nodes f Hs Hga x Hne Ex n (Hm n Hn)).
    destruct (fresh_run S qn fd t scaling velocity cells N Hd Ho G Sup HN Nw s Es cfg nu dt Hv Hga nodes filt c Hnd Hown Hsl Hfl Hin fuel (restarted stat x dt) s1 tr Hc Hst eq_refl E) as (_ & B & _).
    rewrite (B a Ha). cbn [restarted sv_x]. rewrite (content_ext S qn cells _ (fun _ => 0 * 1)).
    - rewrite content_scal. ring.
    - intros cl i Hcl Hi. destruct (V _ (proj1 HN cl i Hcl Hi)) as (_ & _ & U & _). rewrite U. ring.
  Qed.
End Continued.

(** ** Examples *)
Definition gas : collision_config :=
  {| cc_forcing := NO_FORCING; cc_equilibrium := QUARTIC_EQUILIBRIUM; cc_ss_gamma := 1; cc_mrt_basis := DELLAR_D2Q9;
     cc_mrt_relax := RELAX_FULL; cc_heat_gamma := 7/5; cc_prandtl_set := true; cc_prandtl := 7/10; cc_sutherland := false |}.
Lemma gas_setup : valid_setup gas 1 1 1.
Proof. repeat split; cbn; lra. Qed.
Lemma gas_gamma : cc_heat_gamma gas <> 1.
Proof. cbn. lra. Qed.
Lemma d25_6 : order6 Stencil_D2Q25H.
Proof. split; [reflexivity|cbn; lia]. Qed.
Definition gas_c (steps : nat) : run_config :=
  {| rc_compressible := true; rc_semi_lagrangian := false; rc_steps := steps; rc_end_time := 1000; rc_threshold := 0;
     rc_output_off := false; rc_solution_interval := 1; rc_table_interval := 1; rc_checkpoint_interval := 1;
     rc_filtering := false; rc_filter_interval := 1; rc_order := 1; rc_init := EQUILIBRIUM; rc_init_residual := 0; rc_init_steps := 0 |}.
Notation S25 := (stencil_of Stencil_D2Q25H 1).
Definition gas_ops (s : system) : solver_ops fields_g ((nat -> nat -> R) * (nat -> nat -> R)) :=
  dg_ops_g QuarticEquilibrium (make_genData gas None S25 1 1 1) (7/5) S25 1 eight 8 s (fun f => f).
(** Density [rho], velocity ([v], 0) and temperature [T] everywhere. *)
Definition still_gas (rho v T : R) : fields_g :=
  {| fg_f := fun _ _ => 0; fg_g := fun _ _ => 0; fg_rho := fun _ => rho; fg_u := fun _ a => match a with O => v | _ => 0 end; fg_T := fun _ => T |}.

Lemma gas_runs steps rho v T s0 : 1 / 10^10 < rho -> (sv_start s0 <= 1)%nat -> sv_dt s0 = 1 ->
  (forall n, (n < 8)%nat -> fg_rho (sv_x s0) n = rho /\ (forall a, (a < 2)%nat -> fg_u (sv_x s0) n a = match a with O => v | _ => 0 end) /\ fg_T (sv_x s0) n = T) ->
  exists s, reassemble (strip false) S25 false still two empty_system = Ok s /\
  exists s1 tr, run (gas_c steps) (gas_ops s) (S (steps - sv_start s0)) s0 = Some (Ok (s1, tr)) /\
    forall n, (n < 8)%nat -> fg_rho (sv_x s1) n = rho /\ (forall a, (a < 2)%nat -> fg_u (sv_x s1) n a = match a with O => v | _ => 0 end) /\ fg_T (sv_x s1) n = T.
Proof.
  intros Hr Hst Hdt H0.
  destruct (assembles (strip false) (fun i => i) strip_fd Stencil_D2Q25H 1 still two eq_refl ltac:(lra) (strip_good false) (periodic_supported still) false empty_system) as (s & Es).
  exists s. split; [exact Es|].
  exact (gas_run (strip false) (fun i => i) strip_fd Stencil_D2Q25H 1 still two 8 eq_refl d25_6 (strip_good false) (periodic_supported still) (strip_numbers false) strip_periodic s Es
    gas 1 1 gas_setup gas_gamma eight (fun f => f) (gas_c steps) eight_nodup eight_all ltac:(lia) eq_refl rho (fun a => match a with O => v | _ => 0 end) T Hr
    (fun h f H => H) s0 ltac:(repeat split; cbn; lia) eq_refl Hst Hdt H0).
Qed.

(** Energy after a restart of a gas with density 2 and velocity 1. *)
Lemma dense_gas_energy : let y := initialize (7/5) S25 1 [0%nat] (still_gas 2 1 1) in
  energy2 S25 (fg_f y 0%nat) (restored_g (7/5) S25 1 (fg_f y 0%nat)) = energy2 S25 (fg_f y 0%nat) (fg_g y 0%nat) + 3.
Proof.
  intros y. pose proof (restored_equilibrium Stencil_D2Q25H 1 (7/5) [0%nat] (still_gas 2 1 1) 0%nat d25_6 ltac:(lra) ltac:(lra) (or_introl eq_refl)) as E.
  cbv zeta in E. fold y in E. change (fg_rho (still_gas 2 1 1) 0%nat) with 2 in E. specialize (E ltac:(lra)).
  change (st_D S25) with 2%nat in E. unfold dot in E. cbn [sumf INR still_gas fg_u] in E. lra.
Qed.
Lemma hidden_energy : let y := initialize (7/5) S25 1 [0%nat] (still_gas 1 0 1) in
  energy2 S25 (fg_f y 0%nat) (restored_g (7/5) S25 1 (fg_f y 0%nat)) <> energy2 S25 (fg_f y 0%nat) (fun _ => 0).
Proof.
  intros y E.
  assert (P : initial_pair S25 1 (7/5) 1 (fun a => match a with O => 0 | _ => 0 end) 1 (fg_f y 0%nat) (fg_g y 0%nat)) by (intros i Hi; split; reflexivity).
  destruct (pair_random Stencil_D2Q25H 1 (7/5) 1 _ _ _ _ d25_6 ltac:(lra) ltac:(lra) ltac:(lra) P) as (A & _ & C).
  destruct (pair_carries Stencil_D2Q25H 1 (7/5) _ _ _ _ _ d25_6 ltac:(lra) ltac:(lra) P) as (M & _).
  pose proof (restored_energy Stencil_D2Q25H 1 (7/5) (fg_f y 0%nat) (fun _ => 0) ltac:(lra) ltac:(lra)) as X. cbv zeta in X. rewrite M in X. specialize (X ltac:(lra)).
  rewrite A, E in X. replace (mass S25 (fun _ => 0)) with 0 in X by (symmetry; apply sumf_0).
  assert (Hc := cs2_neq0 Stencil_D2Q25H 1 ltac:(lra)). change (INR (st_D S25)) with (1 + 1) in X.
  apply Hc. apply (Rmult_eq_reg_r 3); [|lra]. rewrite Rmult_0_l. rewrite Rminus_diag_eq in X by reflexivity. rewrite X. field. exact Hc.
Qed.

(** The fields after the restart of a moving gas. *)
Lemma moving_restored : exists x, let f := fg_f (initialize (7/5) S25 1 eight (still_gas 1 1 1)) in
  restored_fields_g (7/5) S25 1 (fun _ => true) eight f = Ok x /\
  forall n, (n < 8)%nat -> mass S25 (f n) = 1 /\ momentum S25 (f n) 0 = 1 /\ fg_rho x n = 1 /\ (forall a, fg_u x n a = 0) /\ fg_T x n = 1 + 1 / (5 * st_cs2 S25).
Proof.
  set (f := fg_f (initialize (7/5) S25 1 eight (still_gas 1 1 1))).
  destruct (restored_runs Stencil_D2Q25H 1 (7/5) (fun _ => true) eight f) as [[_ R] _]; [discriminate|]. destruct R as [x Ex]; [reflexivity|].
  exists x. cbv zeta. split; [exact Ex|]. intros n Hn.
  set (y := initialize (7/5) S25 1 eight (still_gas 1 1 1)) in *.
  assert (P : initial_pair S25 1 (7/5) 1 (fun a => match a with O => 1 | _ => 0 end) 1 (fg_f y n) (fg_g y n)).
  { intros i Hi. unfold y, initialize. cbn [fg_f fg_g]. rewrite (proj2 (owned_in n eight) (proj2 (eight_all n) Hn)). split; reflexivity. }
  destruct (pair_random Stencil_D2Q25H 1 (7/5) 1 _ _ _ _ d25_6 ltac:(lra) ltac:(lra) ltac:(lra) P) as (A & _ & C).
  destruct (pair_carries Stencil_D2Q25H 1 (7/5) _ _ _ _ _ d25_6 ltac:(lra) ltac:(lra) P) as (M & J & _).
  assert (Hc := cs2_neq0 Stencil_D2Q25H 1 ltac:(lra)).
  destruct (restored_values Stencil_D2Q25H 1 (7/5) (fun _ => true) eight f ltac:(lra) ltac:(lra) x ltac:(discriminate) Ex n) as (_ & R2 & R3 & R4 & _).
  { unfold f. fold y. rewrite M. lra. }
  unfold f in R2, R4. fold y in R2, R4. split; [exact M|]. split; [unfold f; fold y; rewrite (J 0%nat) by (cbn; lia); lra|]. split; [rewrite R2; exact M|]. split; [exact R3|].
  rewrite R4. unfold restored_T. rewrite A, M.
  replace (dot (st_D S25) (bulk S25 (fg_f y n)) (bulk S25 (fg_f y n))) with 1.
  2:{ change (st_D S25) with 2%nat. unfold dot. cbn [sumf]. rewrite !C by (cbn; lia). lra. }
  change (INR (st_D S25)) with (1 + 1). field. exact Hc.
Qed.
Lemma moving_early : exists s x s1 tr, let f := fg_f (initialize (7/5) S25 1 eight (still_gas 1 1 1)) in let content := content (strip false) (fun i => i) two in
  reassemble (strip false) S25 false still two empty_system = Ok s /\ restored_fields_g (7/5) S25 1 (fun _ => true) eight f = Ok x /\
  run (gas_c 3) (gas_ops s) 3 (restarted {| cs_iteration := 1%nat; cs_time := 1; cs_scaling := 1; cs_order := 1%nat |} x 1) = Some (Ok (s1, tr)) /\
  content (fun n => momentum S25 (f n) 0) = 2 /\ content (fun n => fg_rho (sv_x s1) n * fg_u (sv_x s1) n 0%nat) = 0.
Proof.
  destruct moving_restored as (x & Ex & V). cbv zeta in Ex, V.
  set (s0 := restarted {| cs_iteration := 1%nat; cs_time := 1; cs_scaling := 1; cs_order := 1%nat |} x 1).
  destruct (gas_runs 3 1 0 (1 + 1 / (5 * st_cs2 S25)) s0) as (s & Es & s1 & tr & E & K); try reflexivity.
  { assert (10^10 > 1) by (apply Rlt_pow_R1; [lra|lia]). apply (Rmult_lt_reg_r (10^10)); [lra|]. unfold Rdiv. rewrite Rmult_assoc, Rinv_l by lra. lra. }
  { intros n Hn. destruct (V n Hn) as (_ & _ & A & B & C). split; [exact A|]. split; [|exact C]. intros [|a] _; apply B. }
  exists s, x, s1, tr. split; [exact Es|]. split; [exact Ex|]. split; [exact E|]. split.
  - rewrite (content_ext (strip false) (fun i => i) two _ (fun _ => 1)); [apply strip_volume|].
    intros cl i Hc Hi. apply V. apply (proj1 (strip_numbers false) cl i Hc Hi).
  - rewrite (content_ext (strip false) (fun i => i) two _ (fun _ => 0 * 1)); [rewrite content_scal; ring|].
    intros cl i Hc Hi. destruct (K _ (proj1 (strip_numbers false) cl i Hc Hi)) as (_ & B & _). rewrite (B 0%nat) by lia. ring.
Qed.
Lemma small2 : 1 / 10^10 < 2.
Proof.
  assert (10^10 > 1) by (apply Rlt_pow_R1; [lra|lia]). apply (Rmult_lt_reg_r (10^10)); [lra|]. unfold Rdiv. rewrite Rmult_assoc, Rinv_l by lra. lra.
Qed.
Lemma first_collision cfg t s nu dt nodes x n u : order6 t -> valid_setup cfg s nu dt -> cc_heat_gamma cfg <> 1 -> In n nodes -> 1 / 10^10 <= fg_rho x n ->
  let st := stencil_of t s in let y := initialize (cc_heat_gamma cfg) st s nodes x in
  exists o, collide_node_g QuarticEquilibrium (make_genData cfg None st s nu dt) false (fg_f y n) (fg_g y n) u = Ok o /\
    (forall i, (i < st_Q st)%nat -> ng_f o i = fg_f y n i /\ ng_g o i = fg_g y n i) /\
    ng_rho o = fg_rho x n /\ (forall a, (a < st_D st)%nat -> ng_u o a = fg_u x n a) /\ ng_T o = fg_T x n.
Proof.
  intros Ho Hv Hga Hn Hr st y. apply (fixed_g cfg t s nu dt (fg_rho x n) (fg_u x n) (fg_T x n) _ _ u Ho Hv Hga Hr).
  intros i Hi. unfold y, initialize. cbn [fg_f fg_g]. rewrite (proj2 (owned_in n nodes) Hn). split; reflexivity.
Qed.
Lemma small_throws : exists known nodes, nodes <> [] /\ (forall n, known n = true <-> In n nodes) /\ forall f, restored_fields_g (7/5) S25 1 known nodes f = Throw.
Proof.
  exists (fun n => Nat.ltb n 8), eight. split; [discriminate|]. split; [intros n; rewrite eight_all; apply Nat.ltb_lt|].
  intros f. apply (proj2 (restored_runs Stencil_D2Q25H 1 (7/5) (fun n => Nat.ltb n 8) eight f ltac:(discriminate))). exists 8%nat. split; [cbn; lia|reflexivity].
Qed.
Lemma parallel_throws : exists known nodes, nodes <> [] /\ (forall n, (90 <= n)%nat -> known n = true) /\ forall f, restored_fields_g (7/5) S25 1 known nodes f = Throw.
Proof.
  exists (fun n => Nat.leb 90 n), [100%nat]. split; [discriminate|]. split; [intros n; apply Nat.leb_le|].
  intros f. apply (proj2 (restored_runs Stencil_D2Q25H 1 (7/5) (fun n => Nat.leb 90 n) [100%nat] f ltac:(discriminate))). exists 8%nat. split; [cbn; lia|reflexivity].
Qed.
Lemma hidden_exists : exists gamma x g, let y := initialize gamma S25 1 [0%nat] x in
  fg_rho x 0%nat = 1 /\ (forall a, fg_u x 0%nat a = 0) /\ energy2 S25 (fg_f y 0%nat) (restored_g gamma S25 1 (fg_f y 0%nat)) <> energy2 S25 (fg_f y 0%nat) g.
Proof. exists (7/5), (still_gas 1 0 1), (fun _ => 0). split; [reflexivity|]. split; [intros [|a]; reflexivity|exact hidden_energy]. Qed.
