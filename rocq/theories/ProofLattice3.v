(** Conservation on the lattice; example: 2 x 2 cells with bilinear elements, D2Q9. *)
From Coq Require Import FunctionalExtensionality.
From Verif Require Import Prelude BigSum ModelStencils SpecStencils ModelConfigNames ModelEquilibria ModelCollision ModelRun ModelCheckpoint ModelSemiLagrangian ModelWalls ModelSimulationSL
  SpecCollision SpecSetup SpecCollideAll SpecRun SpecSimulation SpecSemiLagrangian SpecStream SpecCheckpoint SpecLattice ModelSEDG SpecSEDG
  ProofCollideNode ProofForces ProofPhysical ProofRun ProofRun2 ProofCollideAll ProofRestart ProofRestart2 ProofSEDGMesh ProofSimulation2 ProofSimulationEx ProofSemiLagrangian ProofSemiLagrangian5 ProofLattice ProofLattice2.
Local Open Scope R_scope.

Lemma lattice_run_holds D p N h plane e opp dt n g shape dofs cells m k q gd st scaling nodes filt c z :
  lattice_mesh D p N h e dt (st_Q st) n g shape dofs cells m -> NoDup nodes -> (forall cl j, In cl cells -> (j < n)%nat -> In (dofs cl j) nodes) ->
  rc_semi_lagrangian c = true -> rc_filtering c = false -> rc_compressible c = false ->
  assemble (torus D N h plane) e opp dt n (fun j i => INR (g j i) / INR p) dofs (st_Q st) shape cells = Some (Ok z) ->
  forall fuel s0 s1 tr L0, run c (sl_ops k q gd st scaling nodes z filt) fuel s0 = Some (Ok (s1, tr)) -> holds_fields D p N n g dofs (sv_x s0) L0 ->
    holds_fields D p N n g dofs (sv_x s1) (lb_run k q gd (st_Q st) m (sv_i s1 - sv_start s0) L0) /\
    forall i stat d, In (EvCheckpoint i stat d) tr -> holds D p N n g dofs d (lf (lb_run k q gd (st_Q st) m (i - sv_start s0) L0)).
Proof.
  intros LM Hnd Hown Hsl Hfl Hnc Hz fuel s0 s1 tr L0 E H.
  destruct (run_holds D p N h plane e opp dt n g shape dofs cells m k q gd st scaling nodes filt c LM Hnd Hown Hsl Hfl Hnc z Hz (fun _ => 0) 0) with (fuel := fuel) (s0 := s0) (s1 := s1) (tr := tr) (L0 := L0) as [[A _] B].
  - intros. rewrite !sumf_zero by (intros; ring). ring.
  - exact E.
  - exact H.
  - split; [exact A|]. intros i stat d Hin. apply (B i stat d Hin).
Qed.

Lemma lattice_totals D p N h plane e opp dt n g shape dofs cells m k q cfg force t scaling nu nodes filt c z :
  let st := stencil_of t scaling in
  lattice_mesh D p N h e dt (st_Q st) n g shape dofs cells m -> NoDup nodes -> (forall cl j, In cl cells -> (j < n)%nat -> In (dofs cl j) nodes) ->
  closed_form t = true -> valid_setup cfg scaling nu dt -> carries_momentum q = true -> force_handled cfg force ->
  rc_semi_lagrangian c = true -> rc_filtering c = false -> rc_compressible c = false ->
  assemble (torus D N h plane) e opp dt n (fun j i => INR (g j i) / INR p) dofs (st_Q st) shape cells = Some (Ok z) ->
  let over := over_sites p N D in let tau := nu / (dt * st_cs2 st) + 1/2 in
  forall fuel s0 s1 tr F0 U0 F1, run c (sl_ops k q (make_genData cfg force st scaling nu dt) st scaling nodes z filt) fuel s0 = Some (Ok (s1, tr)) ->
    holds D p N n g dofs (fl_f (sv_x s0)) F0 -> holds D p N n g dofs (fl_u (sv_x s0)) U0 -> holds D p N n g dofs (fl_f (sv_x s1)) F1 ->
    over (fun x => mass st (F1 x)) = over (fun x => mass st (F0 x)) /\
    forall a, (a < st_D st)%nat -> over (fun x => momentum st (F1 x) a)
      = over (fun x => momentum st (F0 x) a) + (INR (sv_i s1 - sv_start s0) + 1) * (kick k cfg tau dt force a * over (fun _ => 1)).
Proof.
  intros st LM Hnd Hown Hcf Hv Hq Hfo Hsl Hfl Hnc Hz over tau fuel s0 s1 tr F0 U0 F1 E H0 HU H1.
  assert (EC := every_collision k q cfg force t scaling nu dt Hcf Hv Hq Hfo). fold st in EC. fold tau in EC.
  set (L0 := {| lf := F0; lu := U0 |}). assert (HL : holds_fields D p N n g dofs (sv_x s0) L0) by (split; assumption).
  split.
  - destruct (run_holds D p N h plane e opp dt n g shape dofs cells m k q (make_genData cfg force st scaling nu dt) st scaling nodes filt c LM Hnd Hown Hsl Hfl Hnc z Hz (fun _ => 1) 0)
      with (fuel := fuel) (s0 := s0) (s1 := s1) (tr := tr) (L0 := L0) as [[A B] _].
    + intros f u out Eo. destruct (EC f u out Eo) as [M _]. unfold mass in M.
      rewrite (sumf_ext _ _ (no_f out)), (sumf_ext _ (fun a => f a * 1) f) by (intros; ring). rewrite M. ring.
    + exact E.
    + exact HL.
    + unfold amount in B. cbn [L0 lf] in B. unfold over, mass.
      rewrite (over_ext p N D _ (fun x => sumf (st_Q st) (fun a => lf (lb_run k q (make_genData cfg force st scaling nu dt) (st_Q st) m (sv_i s1 - sv_start s0) L0) x a * 1))).
      * rewrite B. rewrite Rmult_0_l, Rmult_0_r, Rplus_0_r. apply over_ext. intros x. apply sumf_ext. intros; ring.
      * intros x. rewrite (holds_unique _ _ _ _ _ _ _ _ _ _ _ _ _ _ _ _ LM H1 (proj1 A) x). apply sumf_ext. intros; ring.
  - intros a Ha.
    destruct (run_holds D p N h plane e opp dt n g shape dofs cells m k q (make_genData cfg force st scaling nu dt) st scaling nodes filt c LM Hnd Hown Hsl Hfl Hnc z Hz (fun b => st_e st b a) (kick k cfg tau dt force a))
      with (fuel := fuel) (s0 := s0) (s1 := s1) (tr := tr) (L0 := L0) as [[A B] _].
    + intros f u out Eo. destruct (EC f u out Eo) as [_ M]. exact (M a Ha).
    + exact E.
    + exact HL.
    + unfold amount in B. cbn [L0 lf] in B. unfold over, momentum. 
      rewrite (over_ext p N D _ (fun x => sumf (st_Q st) (fun b => lf (lb_run k q (make_genData cfg force st scaling nu dt) (st_Q st) m (sv_i s1 - sv_start s0) L0) x b * st_e st b a))).
      * exact B.
      * intros x. rewrite (holds_unique _ _ _ _ _ _ _ _ _ _ _ _ _ _ _ _ LM H1 (proj1 A) x). reflexivity.
Qed.

(** ** Example *)
Definition g22 (j i : nat) : nat := if Nat.eqb i 0 then (j mod 2)%nat else (j / 2)%nat.
Definition nine : list nat := [0; 1; 2; 3; 4; 5; 6; 7; 8]%nat.

Definition torus22 : mesh index := torus 2 (fun _ => 2%Z) (fun _ => 1) (fun _ _ => (pt2 0 0, pt2 0 0)).
Lemma lattice22 : lattice_mesh 2 1 (fun _ => 2%Z) (fun _ => 1) (st_e S9) 1 9 4 g22 bilinear dofs22 grid22 e9z.
Proof.
  assert (Key : forall c, In c grid22 -> exists x y, (x = 0 \/ x = 1)%nat /\ (y = 0 \/ y = 1)%nat /\ c = cell22 (Z.of_nat x) (Z.of_nat y)).
  { intros b Hb. cbn [grid22 In] in Hb. destruct Hb as [<-|[<-|[<-|[<-|[]]]]]; [exists 0%nat, 0%nat|exists 1%nat, 0%nat|exists 0%nat, 1%nat|exists 1%nat, 1%nat];
      (split; [lia|]; split; [lia|]; reflexivity). }
  constructor.
  - lia.
  - lia.
  - cbn [INR]. apply pow_R1_Rle. lra.
  - intros; lia.
  - intros; lra.
  - apply torus_setup.
  - intros c Hc. assert (A := Hc 0%nat ltac:(lia)). assert (B := Hc 1%nat ltac:(lia)). exists (cell22 (c 0%nat) (c 1%nat)). split; [|split].
    + assert (C0 : c 0%nat = 0%Z \/ c 0%nat = 1%Z) by lia. assert (C1 : c 1%nat = 0%Z \/ c 1%nat = 1%Z) by lia. cbn [grid22 In].
      destruct C0 as [-> | ->]; destruct C1 as [-> | ->]; tauto.
    + intros i Hi. unfold cell22. destruct (Nat.eqb_spec i 0) as [->|]; [reflexivity|]. replace i with 1%nat by lia. reflexivity.
    + intros j. reflexivity.
  - intros j i Hj Hi. unfold g22. destruct (Nat.eqb i 0).
    + assert (B : (j mod 2 < 2)%nat) by (apply Nat.mod_upper_bound; lia). lia.
    + assert (B : (j / 2 < 2)%nat) by (apply Nat.div_lt_upper_bound; lia). lia.
  - intros w Hw. assert (A := Hw 0%nat ltac:(lia)). assert (B := Hw 1%nat ltac:(lia)). exists (w 0%nat + 2 * w 1%nat)%nat. split; [lia|].
    assert (C0 : w 0%nat = 0%nat \/ w 0%nat = 1%nat) by lia. assert (C1 : w 1%nat = 0%nat \/ w 1%nat = 1%nat) by lia.
    intros i Hi. unfold g22. destruct (Nat.eqb_spec i 0) as [->|]; [|replace i with 1%nat by lia]; destruct C0 as [-> | ->]; destruct C1 as [-> | ->]; reflexivity.
  - intros j k u Hj Hk Hu. assert (A := Hu 0%nat ltac:(lia)). assert (B := Hu 1%nat ltac:(lia)). unfold bilinear. rewrite A, B. unfold g22, delta.
    do 4 (destruct j as [|j]; [do 4 (destruct k as [|k]; [cbn; field|]); lia|]). lia.
  - intros c c' j j' Hc Hc' Hj Hj' E i Hi.
    destruct (Key c Hc) as (x & y & Hx & Hy & ->). destruct (Key c' Hc') as (x' & y' & Hx' & Hy' & ->).
    unfold dofs22, cell22 in E. cbn [Nat.eqb] in E. rewrite !Nat2Z.id in E.
    assert (B : (j mod 2 < 2)%nat) by (apply Nat.mod_upper_bound; lia). assert (B' : (j' mod 2 < 2)%nat) by (apply Nat.mod_upper_bound; lia).
    assert (B2 : (j / 2 < 2)%nat) by (apply Nat.div_lt_upper_bound; lia). assert (B2' : (j' / 2 < 2)%nat) by (apply Nat.div_lt_upper_bound; lia).
    assert (E0 : (x + j mod 2 = x' + j' mod 2)%nat) by lia. assert (E1 : (y + j / 2 = y' + j' / 2)%nat) by lia.
    exists 0%Z. unfold site, cell22, g22. destruct (Nat.eqb i 0); lia.
  - intros a i Ha Hi. rewrite e9_value by assumption. cbn [INR]. field.
  - intros i. do 2 (destruct i as [|i]; [reflexivity|]). destruct i; reflexivity.
  - intros a Ha. cbn [sumf INR]. rewrite !e9_value by lia. do 9 (destruct a as [|a]; [cbn [e9z nth]; first [lia|rewrite !Rmult_1_l; unfold Rdiv; rewrite Rinv_1, ?abs_IZR; cbn; rewrite <- ?abs_IZR; cbn; lra]|]). lia.
Qed.

Lemma nine_nodup : NoDup nine.
Proof. unfold nine. repeat constructor; cbn; intuition lia. Qed.
Lemma nine_all cl j : In cl grid22 -> (j < 4)%nat -> In (dofs22 cl j) nine.
Proof.
  intros Hc Hj. cbn [grid22 In] in Hc. unfold nine. destruct Hc as [<-|[<-|[<-|[<-|[]]]]]; do 4 (destruct j as [|j]; [cbn; tauto|]); lia.
Qed.
Lemma nine_lt n : In n nine <-> (n < 9)%nat.
Proof. unfold nine. cbn. lia. Qed.
Lemma nine_dof n : (n < 9)%nat -> exists cl j, In cl grid22 /\ (j < 4)%nat /\ dofs22 cl j = n.
Proof.
  intros Hn. destruct n as [|[|[|[|[|[|[|[|[|n]]]]]]]]]; [| | | | | | | | |lia];
    [exists (cell22 0 0), 0%nat|exists (cell22 0 0), 1%nat|exists (cell22 1 0), 1%nat|exists (cell22 0 0), 2%nat|exists (cell22 0 0), 3%nat|exists (cell22 1 0), 3%nat
    |exists (cell22 0 1), 2%nat|exists (cell22 0 1), 3%nat|exists (cell22 1 1), 3%nat]; (split; [cbn [grid22 In]; tauto|split; [lia|reflexivity]]).
Qed.
Definition sl_c (steps : nat) : run_config :=
  {| rc_compressible := false; rc_semi_lagrangian := true; rc_steps := steps; rc_end_time := 1000; rc_threshold := 0;
     rc_output_off := false; rc_solution_interval := 1; rc_table_interval := 1; rc_checkpoint_interval := 1;
     rc_filtering := false; rc_filter_interval := 1; rc_order := 1; rc_init := EQUILIBRIUM; rc_init_residual := 0; rc_init_steps := 0 |}.
Definition slide_ops (z : list entry) : solver_ops fields (nat -> nat -> R) :=
  sl_ops BGKCollision BGKEquilibrium (make_genData pushed (Some unitF) S9 1 1 1) S9 1 nine z (fun f => f).
Definition even9 (f : nat -> nat -> R) : Prop := exists E, 1 / 10 ^ 10 < mass S9 E /\ forall n i, (n < 9)%nat -> (i < 9)%nat -> f n i = E i.
Lemma even9_collide z x : even9 (fl_f x) -> exists y, so_collide (slide_ops z) x = Ok y /\ even9 (fl_f y).
Proof.
  intros (E & P & U). set (gd := make_genData pushed (Some unitF) S9 1 1 1). cbn [slide_ops sl_ops cfd_ops so_collide]. fold gd.
  assert (Run : forall f u, (forall i, (i < 9)%nat -> f i = E i) -> exists o, collide_node BGKCollision BGKEquilibrium gd false f u = Ok o /\
    no_rho o = mass S9 E /\ mass S9 (no_f o) = mass S9 E).
  { intros f u Hf. assert (M : mass S9 f = mass S9 E) by (apply sumf_ext; exact Hf).
    destruct (force_runs BGKCollision BGKEquilibrium pushed Stencil_D2Q9 1 1 1 unitF f u eq_refl (wsetup _ _ _) eq_refl (or_intror eq_refl)) as [o Ho]; [unfold dense; rewrite M; lra|reflexivity|].
    exists o. split; [exact Ho|]. destruct (exact_ok BGKCollision BGKEquilibrium pushed Stencil_D2Q9 1 1 1 unitF f u o eq_refl (wsetup _ _ _) eq_refl ltac:(discriminate) eq_refl Ho) as ([A _] & B & _).
    rewrite A, B, M. auto. }
  destruct (all_runs BGKCollision BGKEquilibrium gd false nine x nine_nodup) as [y Ey].
  - discriminate.
  - intros n Hn. destruct (Run (fl_f x n) (fl_u x n)) as (o & A & B & _). { intros i Hi. apply U; [apply nine_lt; exact Hn|exact Hi]. }
    exists o. split; [exact A|]. rewrite B. exact P.
  - exists y. split; [exact Ey|]. destruct (all_node_by_node BGKCollision BGKEquilibrium gd false nine x y nine_nodup Ey) as [A _].
    destruct (A 0%nat) as (o0 & E0 & F0 & _); [left; reflexivity|]. exists (fl_f y 0%nat). split.
    + rewrite F0. destruct (Run (fl_f x 0%nat) (fl_u x 0%nat)) as (o & Ho & _ & B). { intros i Hi. apply U; [lia|exact Hi]. } rewrite E0 in Ho. injection Ho as ->. rewrite B. exact P.
    + intros n i Hn Hi. destruct (A n (proj2 (nine_lt n) Hn)) as (o & Eo & F & _). rewrite F, F0.
      refine (bgk_same BGKEquilibrium gd _ _ _ _ _ _ _ Eo E0 i Hi). intros j Hj. change (j < 9)%nat in Hj. rewrite (U n j Hn Hj), (U 0%nat j ltac:(lia) Hj). reflexivity.
Qed.
Lemma even9_stream z f : assemble torus22 (st_e S9) (opposite S9) 1 4 (fun j i => INR (g22 j i) / INR 1) dofs22 9 bilinear grid22 = Some (Ok z) -> even9 f -> even9 (sl_stream 9 z f).
Proof.
  intros Hz (E & P & U). exists E. split; [exact P|]. intros n i Hn Hi.
  destruct (shift_rows 2 1 (fun _ => 2%Z) (fun _ => 1) (fun _ _ => (pt2 0 0, pt2 0 0)) (st_e S9) (opposite S9) 1 9 4 g22 bilinear dofs22 grid22 e9z lattice22) as (z' & Hz' & R).
  unfold torus22 in Hz. rewrite Hz in Hz'. injection Hz' as <-.
  unfold sl_stream. destruct (Nat.ltb_spec i 9); [|lia]. destruct i as [|b]; [cbn [multiply]; apply U; assumption|]. cbn [multiply].
  destruct (nine_dof n Hn) as (cl & j & Hc & Hj & <-). destruct (R cl j (S b) Hc Hj ltac:(lia)) as (c2 & k & G & Hk & _ & A). replace (S b - 1)%nat with b in A by lia.
  rewrite A. apply U; [|lia]. destruct (lm_all _ _ _ _ _ _ _ _ _ _ _ _ _ lattice22 c2 G) as (c' & Hc' & _ & Ed). rewrite <- (Ed k). apply nine_lt, nine_all; assumption.
Qed.
Lemma slide_run steps : (steps < 1000)%nat -> exists z s1 tr, assemble torus22 (st_e S9) (opposite S9) 1 4 (fun j i => INR (g22 j i) / INR 1) dofs22 9 bilinear grid22 = Some (Ok z) /\
  run (sl_c steps) (slide_ops z) (S steps) (fresh {| fl_f := fun _ => rest; fl_rho := fun _ => 1; fl_u := fun _ _ => 0 |} 1) = Some (Ok (s1, tr)) /\ sv_i s1 = steps.
Proof.
  intros Hst. destruct (aligned_shift 2 1 (fun _ => 2%Z) (fun _ => 1) (fun _ _ => (pt2 0 0, pt2 0 0)) (st_e S9) (opposite S9) 1 9 4 g22 bilinear dofs22 grid22 e9z lattice22) as (z & Hz & _).
  change (torus 2 (fun _ => 2%Z) (fun _ => 1) (fun _ _ => (pt2 0 0, pt2 0 0))) with torus22 in Hz.
  set (s0 := fresh _ 1). set (c := sl_c steps).
  assert (Hv : valid_intervals c) by (repeat split; cbn; lia).
  assert (K : keeps (slide_ops z) (fun x => even9 (fl_f x))).
  { repeat split.
    - intros x. apply even9_collide.
    - intros h x. apply even9_stream. exact Hz.
    - intros h x. apply even9_stream. exact Hz.
    - intros x H. exact H.
    - intros p x []. }
  destruct (run_runs c (slide_ops z) _ Hv K s0 eq_refl) as (s1 & tr & E & _).
  { exists rest. split; [|reflexivity]. unfold mass. cbn. lra. }
  exists z, s1, tr. split; [exact Hz|]. change (sv_start s0) with 0%nat in E. change (rc_steps c) with steps in E. rewrite Nat.sub_0_r in E. split; [exact E|].
  destruct (run_final c (slide_ops z) _ s0 s1 tr (or_introl eq_refl) (Rle_refl 0) Rle_0_1 E) as [Q1 Q2].
  destruct (run_steps _ _ _ _ _ _ E) as (Q3 & _).
  change (sv_start s0) with 0%nat in *. change (sv_time s0) with 0 in *. change (sv_dt s0) with 1 in *. change (rc_steps c) with steps in *. change (rc_end_time c) with 1000 in *.
  destruct (Nat.lt_trichotomy (sv_i s1) steps) as [H|[H|H]]; [|exact H|].
  - exfalso. destruct Q1 as [Q1|Q1]; [lia|]. rewrite Nat.sub_0_r in Q1.
    assert (H1 : INR (sv_i s1) < INR 1000) by (apply lt_INR; lia).
    rewrite (INR_IZR_INZ 1000) in H1. change (Z.of_nat 1000) with 1000%Z in H1. lra.
  - exfalso. apply (Q2 steps); [lia|left; lia].
Qed.
