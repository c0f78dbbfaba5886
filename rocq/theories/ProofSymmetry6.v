(** Whole runs on a lattice commute with the symmetries. *)
From Verif Require Import Prelude BigSum ModelStencils SpecStencils ModelConfigNames ModelEquilibria ModelCollision ModelRun ModelCheckpoint ModelSemiLagrangian ModelSEDG ModelWalls ModelSimulationSL
  SpecCollision SpecSetup SpecRun SpecSimulation SpecSemiLagrangian SpecSEDG SpecLattice ProofPhysical ProofRestart2 ProofSEDGMesh ProofSimulationEx ProofSemiLagrangian ProofSemiLagrangian5 ProofLattice ProofLattice2 ProofLattice3
  SpecSymmetry SpecSymmetryRun ProofSymmetry ProofSymmetry2 ProofSymmetry3 ProofSymmetry5.
Local Open Scope R_scope.

Lemma axis_turned D ax sz u a : (a < D)%nat -> (ax a < D)%nat -> turned D (axis_map ax sz) u a = IZR (sz a) * u (ax a).
Proof.
  intros Ha Hx. unfold turned, axis_map. rewrite <- (sumf_delta D (ax a) u Hx), <- sumf_scal. apply sumf_ext. intros b _. ring.
Qed.

Section Runs.
Variables (k : T_collision) (q : T_equilibrium) (cfg : collision_config) (t : StencilType) (s nu dt : R).
Variables (ax : nat -> nat) (sz : nat -> Z) (pi : nat -> nat).
Variables F F' : option (nat -> R).
Let st := stencil_of t s.
Hypothesis Hs : s <> 0.
Hypothesis Hev : even_handed k t cfg.
Hypothesis Hax : forall a, (a < st_D st)%nat -> (ax a < st_D st)%nat.
Hypothesis Sy : symmetry st (axis_map ax sz) pi.
Hypothesis HF : turned_force st (axis_map ax sz) F F'.
Let gd := make_genData cfg F st s nu dt.
Let gd' := make_genData cfg F' st s nu dt.

Lemma lattice_collide_turns L L' : turned_lattice st pi ax sz L L' -> turned_lattice st pi ax sz (lb_collide k q gd L) (lb_collide k q gd' L').
Proof.
  intros H x y Hy. destruct (H x y Hy) as [Hf Hu]. unfold lb_collide. cbn [lf lu].
  pose proof (sy_node k q cfg t s nu dt (axis_map ax sz) pi F F' Hs Hev Sy HF false (lf L x) (lf L' y) (lu L x) (lu L' y) Hf Hu) as E.
  fold st in E. fold gd gd' in E. unfold same_outcome in E.
  destruct (collide_node k q gd false (lf L x) (lu L x)) as [o| |], (collide_node k q gd' false (lf L' y) (lu L' y)) as [o'| |]; try contradiction; try (split; assumption).
  destruct E as (E1 & _ & E2). split; assumption.
Qed.

Variables m m' : nat -> index.
Hypothesis Hm : forall i a, (i < st_Q st)%nat -> (a < st_D st)%nat -> m' (pi i) a = (sz a * m i (ax a))%Z.

Lemma lattice_stream_turns L L' : turned_lattice st pi ax sz L L' -> turned_lattice st pi ax sz (lb_stream (st_Q st) m L) (lb_stream (st_Q st) m' L').
Proof.
  intros H x y Hy. unfold lb_stream. cbn [lf lu]. split; [|apply (H x y Hy)]. intros i Hi.
  pose proof (sy_range _ _ _ Sy i Hi) as Hr. rewrite (proj2 (Nat.ltb_lt (pi i) (st_Q st)) Hr), (proj2 (Nat.ltb_lt i (st_Q st)) Hi).
  refine (proj1 (H (fun a => x a - m i a)%Z (fun a => y a - m' (pi i) a)%Z _) i Hi).
  intros a Ha. rewrite (Hy a Ha), (Hm i a Hi Ha). unfold turned_site. ring.
Qed.

Lemma lattice_run_turns steps L L' : turned_lattice st pi ax sz L L' ->
  turned_lattice st pi ax sz (lb_run k q gd (st_Q st) m steps L) (lb_run k q gd' (st_Q st) m' steps L').
Proof.
  intros H. induction steps as [|j IH]; cbn [lb_run]; [apply lattice_collide_turns; assumption|].
  apply lattice_collide_turns, lattice_stream_turns. exact IH.
Qed.
End Runs.

Lemma jumps_turn t s p N N' h h' dt n n' g g' shape shape' dofs dofs' cells cells' m m' ax sz pi : let st := stencil_of t s in
  lattice_mesh (st_D st) p N h (st_e st) dt (st_Q st) n g shape dofs cells m ->
  lattice_mesh (st_D st) p N' h' (st_e st) dt (st_Q st) n' g' shape' dofs' cells' m' ->
  (forall a, (a < st_D st)%nat -> (ax a < st_D st)%nat /\ h' a = h (ax a)) -> symmetry st (axis_map ax sz) pi ->
  forall i a, (i < st_Q st)%nat -> (a < st_D st)%nat -> m' (pi i) a = (sz a * m i (ax a))%Z.
Proof.
  intros st M M' Hax Sy i a Hi Ha. destruct (Hax a Ha) as [Hx Hh].
  pose proof (lm_step _ _ _ _ _ _ _ _ _ _ _ _ _ M i (ax a) Hi Hx) as E.
  pose proof (lm_step _ _ _ _ _ _ _ _ _ _ _ _ _ M' (pi i) a (sy_range _ _ _ Sy i Hi) Ha) as E'.
  rewrite (sy_direction _ _ _ Sy i a Hi Ha), (axis_turned _ ax sz _ a Ha Hx), Hh in E'.
  pose proof (lm_width _ _ _ _ _ _ _ _ _ _ _ _ _ M (ax a) Hx) as Hw. pose proof (lm_order _ _ _ _ _ _ _ _ _ _ _ _ _ M) as Hp. apply lt_INR in Hp. cbn [INR] in Hp.
  apply eq_IZR. rewrite mult_IZR. apply (Rmult_eq_reg_r (h (ax a) / INR p)).
  - rewrite <- E'. rewrite Rmult_assoc, <- E. ring.
  - apply Rmult_integral_contrapositive_currified; [lra|apply Rinv_neq_0_compat; lra].
Qed.

Lemma runs_turn t s p N N' h h' plane plane' opp opp' dt n n' g g' shape shape' dofs dofs' cells cells' m m' k q cfg F F' nu nodes nodes' filt filt' c c' z z' ax sz pi :
  let st := stencil_of t s in
  lattice_mesh (st_D st) p N h (st_e st) dt (st_Q st) n g shape dofs cells m -> NoDup nodes -> (forall cl j, In cl cells -> (j < n)%nat -> In (dofs cl j) nodes) ->
  lattice_mesh (st_D st) p N' h' (st_e st) dt (st_Q st) n' g' shape' dofs' cells' m' -> NoDup nodes' -> (forall cl j, In cl cells' -> (j < n')%nat -> In (dofs' cl j) nodes') ->
  (forall a, (a < st_D st)%nat -> (ax a < st_D st)%nat /\ h' a = h (ax a)) -> symmetry st (axis_map ax sz) pi ->
  s <> 0 -> even_handed k t cfg -> turned_force st (axis_map ax sz) F F' ->
  rc_semi_lagrangian c = true -> rc_filtering c = false -> rc_compressible c = false ->
  rc_semi_lagrangian c' = true -> rc_filtering c' = false -> rc_compressible c' = false ->
  assemble (torus (st_D st) N h plane) (st_e st) opp dt n (fun j i => INR (g j i) / INR p) dofs (st_Q st) shape cells = Some (Ok z) ->
  assemble (torus (st_D st) N' h' plane') (st_e st) opp' dt n' (fun j i => INR (g' j i) / INR p) dofs' (st_Q st) shape' cells' = Some (Ok z') ->
  forall fuel fuel' s0 s1 tr s0' s1' tr' L0 L0',
    run c (sl_ops k q (make_genData cfg F st s nu dt) st s nodes z filt) fuel s0 = Some (Ok (s1, tr)) ->
    run c' (sl_ops k q (make_genData cfg F' st s nu dt) st s nodes' z' filt') fuel' s0' = Some (Ok (s1', tr')) ->
    (sv_i s1 - sv_start s0 = sv_i s1' - sv_start s0')%nat ->
    holds_fields (st_D st) p N n g dofs (sv_x s0) L0 -> holds_fields (st_D st) p N' n' g' dofs' (sv_x s0') L0' -> turned_lattice st pi ax sz L0 L0' ->
    exists L1 L1', holds_fields (st_D st) p N n g dofs (sv_x s1) L1 /\ holds_fields (st_D st) p N' n' g' dofs' (sv_x s1') L1' /\ turned_lattice st pi ax sz L1 L1'.
Proof.
  intros st M Hnd Hown M' Hnd' Hown' Hax Sy Hs Hev HF C1 C2 C3 C1' C2' C3' Hz Hz' fuel fuel' s0 s1 tr s0' s1' tr' L0 L0' R R' Hn H H' HL.
  destruct (lattice_run_holds _ p N h plane (st_e st) opp dt n g shape dofs cells m k q (make_genData cfg F st s nu dt) st s nodes filt c z M Hnd Hown C1 C2 C3 Hz fuel s0 s1 tr L0 R H) as [A _].
  destruct (lattice_run_holds _ p N' h' plane' (st_e st) opp' dt n' g' shape' dofs' cells' m' k q (make_genData cfg F' st s nu dt) st s nodes' filt' c' z' M' Hnd' Hown' C1' C2' C3' Hz' fuel' s0' s1' tr' L0' R' H') as [A' _].
  do 2 eexists. split; [exact A|]. split; [exact A'|]. rewrite <- Hn.
  apply (lattice_run_turns k q cfg t s nu dt ax sz pi F F' Hs Hev); [exact Sy|exact HF| |exact HL].
  exact (jumps_turn t s p N N' h h' dt n n' g g' shape shape' dofs dofs' cells cells' m m' ax sz pi M M' Hax Sy).
Qed.

Lemma run_stays_symmetric t s p N h plane opp dt n g shape dofs cells m k q cfg F nu nodes filt c z ax sz pi :
  let st := stencil_of t s in
  lattice_mesh (st_D st) p N h (st_e st) dt (st_Q st) n g shape dofs cells m -> NoDup nodes -> (forall cl j, In cl cells -> (j < n)%nat -> In (dofs cl j) nodes) ->
  (forall a, (a < st_D st)%nat -> (ax a < st_D st)%nat /\ h a = h (ax a)) -> symmetry st (axis_map ax sz) pi ->
  s <> 0 -> even_handed k t cfg -> turned_force st (axis_map ax sz) F F ->
  rc_semi_lagrangian c = true -> rc_filtering c = false -> rc_compressible c = false ->
  assemble (torus (st_D st) N h plane) (st_e st) opp dt n (fun j i => INR (g j i) / INR p) dofs (st_Q st) shape cells = Some (Ok z) ->
  forall fuel s0 s1 tr L0, run c (sl_ops k q (make_genData cfg F st s nu dt) st s nodes z filt) fuel s0 = Some (Ok (s1, tr)) ->
    holds_fields (st_D st) p N n g dofs (sv_x s0) L0 -> turned_lattice st pi ax sz L0 L0 ->
    exists L1, holds_fields (st_D st) p N n g dofs (sv_x s1) L1 /\ turned_lattice st pi ax sz L1 L1.
Proof.
  intros st M Hnd Hown Hax Sy Hs Hev HF C1 C2 C3 Hz fuel s0 s1 tr L0 R H HL.
  destruct (lattice_run_holds _ p N h plane (st_e st) opp dt n g shape dofs cells m k q (make_genData cfg F st s nu dt) st s nodes filt c z M Hnd Hown C1 C2 C3 Hz fuel s0 s1 tr L0 R H) as [A _].
  eexists. split; [exact A|].
  apply (lattice_run_turns k q cfg t s nu dt ax sz pi F F Hs Hev); [exact Sy|exact HF| |exact HL].
  exact (jumps_turn t s p N N h h dt n n g g shape shape dofs dofs cells cells m m ax sz pi M M Hax Sy).
Qed.
