(** C132 (collisions commute with the symmetries of the stencil), C133 (all relaxation modes treat the axes alike), C134 (runs commute with
    exchange and reversal of axes). *)
From Verif Require Import Prelude BigSum ModelStencils SpecStencils ModelConfigNames ModelEquilibria ModelCollision ModelRun ModelCheckpoint ModelSemiLagrangian ModelSEDG ModelWalls ModelSimulationSL
  SpecCollision SpecSetup SpecRun SpecSimulation SpecSemiLagrangian SpecSEDG SpecLattice ProofCollideNode ProofPhysical ProofRestart2 ProofSEDGMesh ProofSimulationEx ProofSemiLagrangian ProofSemiLagrangian5 ProofLattice ProofLattice2 ProofLattice3
  SpecSymmetry SpecSymmetryRun ProofSymmetry ProofSymmetry2 ProofSymmetry3 ProofSymmetry4 ProofSymmetry5 ProofSymmetry6.
Local Open Scope R_scope.

(** ** C132: a collision has no preferred direction. Turned or mirrored populations, velocity and force give the turned or mirrored result,
    and one collision fails if and only if the other one fails in the same way. *)
Theorem C132_collision : forall k q cfg t s nu dt A pi F F' init f f' u u', let st := stencil_of t s in
  s <> 0 -> even_handed k t cfg -> symmetry st A pi -> turned_force st A F F' -> turned_populations st pi f f' -> turned_vector st A u u' ->
  same_outcome (turned_node st A pi) (collide_node k q (make_genData cfg F st s nu dt) init f u) (collide_node k q (make_genData cfg F' st s nu dt) init f' u').
Proof. intros k q cfg t s nu dt A pi F F' init f f' u u' st Hs Hev Sy HF Hf Hu. exact (sy_node k q cfg t s nu dt A pi F F' Hs Hev Sy HF init f f' u u' Hf Hu). Qed.
Print Assumptions C132_collision.

(** The symmetries of the cubic stencils include every exchange and every reversal of axes (8 in two, 48 in three dimensions). *)
Theorem C132_cubic : forall t s A, cubic t = true -> signed_permutation (st_D (stencil_of t s)) A -> exists pi, symmetry (stencil_of t s) A pi.
Proof. exact cubic_group. Qed.
Print Assumptions C132_cubic.

(** Cyclic exchange of the three axes on D3Q19, d'Humieres' scheme with the rates of the paper. *)
Example C132_ex : let A := axis_map (fun a => Nat.modulo (a + 1) 3) (fun _ => 1%Z) in
  even_handed MultipleRelaxationTime Stencil_D3Q19 (wcfg EXACT_DIFFERENCE RELAX_DHUMIERES_PAPER DHUMIERES_D3Q19) /\
  (exists pi, symmetry (stencil_of Stencil_D3Q19 2) A pi) /\ turned 3 A unitF 2 = 1 /\
  (exists o, collide_node MultipleRelaxationTime BGKEquilibrium (make_genData (wcfg EXACT_DIFFERENCE RELAX_DHUMIERES_PAPER DHUMIERES_D3Q19) None (D3Q19 1) 1 1 1) false rest unitF = Ok o).
Proof.
  cbv zeta. split; [|split; [|split]].
  - intros _. split; [reflexivity|discriminate].
  - apply cubic_group; [reflexivity|]. exists (fun a => Nat.modulo (a + 1) 3), (fun _ => 1). cbn [stencil_of D3Q19 st_D]. repeat split.
    + intros a Ha. apply Nat.mod_upper_bound. discriminate.
    + intros a b Ha Hb. destruct a as [|[|[|a]]], b as [|[|[|b]]]; cbn; lia.
    + intros. left. reflexivity.
  - unfold turned, axis_map, unitF, delta. cbn. ring.
  - exact (proj2 (collide_runs MultipleRelaxationTime BGKEquilibrium (wcfg EXACT_DIFFERENCE RELAX_DHUMIERES_PAPER DHUMIERES_D3Q19) Stencil_D3Q19 1 1 1 rest unitF eq_refl (wsetup _ _ _) eq_refl
              (rest_dense _ _)) eq_refl).
Qed.

(** The other stencils: D2Q19H and D2Q19V tell the two axes apart, D3Q45 is not its own mirror image. *)
Theorem C132_cubic_all_refuted : exists t A, signed_permutation (st_D (stencil_of t 1)) A /\ forall pi, ~ symmetry (stencil_of t 1) A pi.
Proof. exists Stencil_D2Q19H, swap_axes. split; [exact swap_signed|]. intros pi. apply (oblong 1 ltac:(lra) pi). Qed.
Print Assumptions C132_cubic_all_refuted.
Theorem C132_oblong : forall s, s <> 0 -> forall pi, ~ symmetry (D2Q19H s) swap_axes pi /\ ~ symmetry (D2Q19V s) swap_axes pi /\ ~ symmetry (D3Q45 s) mirror_last pi.
Proof. exact oblong. Qed.
Print Assumptions C132_oblong.

(** ** C133: every relaxation mode treats the axes alike. Dellar's only-N mode does not. *)
Theorem C133_only_N_refuted : exists cfg s nu dt A pi f f' u o o',
  valid_setup cfg s nu dt /\ cc_mrt_basis cfg = DELLAR_D2Q9 /\ cc_mrt_relax cfg = DELLAR_RELAX_ONLY_N /\ symmetry (D2Q9 s) A pi /\
  turned_populations (D2Q9 s) pi f f' /\
  collide_node MultipleRelaxationTime BGKEquilibrium (make_genData cfg None (D2Q9 s) s nu dt) false f u = Ok o /\
  collide_node MultipleRelaxationTime BGKEquilibrium (make_genData cfg None (D2Q9 s) s nu dt) false f' u = Ok o' /\
  ~ turned_populations (D2Q9 s) pi (no_f o) (no_f o').
Proof. exact only_N_uneven. Qed.
Print Assumptions C133_only_N_refuted.
(** All other modes do, on the stencil they were written for. *)
Theorem C133_modes_partial : forall t cfg, mrt_accepts t (cc_mrt_basis cfg) (cc_mrt_relax cfg) = true -> cc_mrt_relax cfg <> DELLAR_RELAX_ONLY_N ->
  forall q s nu dt A pi F F' init f f' u u', let st := stencil_of t s in
  s <> 0 -> symmetry st A pi -> turned_force st A F F' -> turned_populations st pi f f' -> turned_vector st A u u' ->
  same_outcome (turned_node st A pi) (collide_node MultipleRelaxationTime q (make_genData cfg F st s nu dt) init f u)
    (collide_node MultipleRelaxationTime q (make_genData cfg F' st s nu dt) init f' u').
Proof.
  intros t cfg Hacc Hmode q s nu dt A pi F F' init f f' u u' st Hs Sy HF Hf Hu.
  exact (sy_node MultipleRelaxationTime q cfg t s nu dt A pi F F' Hs (fun _ => conj Hacc Hmode) Sy HF init f f' u u' Hf Hu).
Qed.
Print Assumptions C133_modes_partial.
Example C133_modes_ex : mrt_accepts Stencil_D2Q9 DELLAR_D2Q9 RELAX_FULL = true /\ mrt_accepts Stencil_D2Q9 LALLEMAND_D2Q9 RELAX_FULL = true /\
  symmetry (D2Q9 1) swap_axes swap_dirs /\ turned_populations (D2Q9 1) swap_dirs lean lean' /\ lean 1%nat <> lean' 1%nat.
Proof. split; [reflexivity|]. split; [reflexivity|]. split; [apply swap_symmetry|]. split; [apply lean_turned|]. cbn. lra. Qed.

(** ** C134: two grid-aligned semi-Lagrangian runs whose initial states, meshes and forces are images of each other stay images of each other
    for any number of iterations, *)
Theorem C134_turned : forall t s p N N' h h' plane plane' opp opp' dt n n' g g' shape shape' dofs dofs' cells cells' m m' k q cfg F F' nu nodes nodes' filt filt' c c' z z' ax sz pi,
  let st := stencil_of t s in
  lattice_mesh (st_D st) p N h (st_e st) dt (st_Q st) n g shape dofs cells m -> NoDup nodes -> (forall cl j, In cl cells -> (j < n)%nat -> In (dofs cl j) nodes) ->
  lattice_mesh (st_D st) p N' h' (st_e st) dt (st_Q st) n' g' shape' dofs' cells' m' -> NoDup nodes' -> (forall cl j, In cl cells' -> (j < n')%nat -> In (dofs' cl j) nodes') ->
  (forall a, (a < st_D st)%nat -> (ax a < st_D st)%nat /\ h' a = h (ax a)) -> symmetry st (axis_map ax sz) pi ->
  s <> 0 -> even_handed k t cfg -> turned_force st (axis_map ax sz) F F' ->
  rc_semi_lagrangian c = true -> rc_filtering c = false -> rc_compressible c = false ->
  rc_semi_lagrangian c' = true -> rc_filtering c' = false -> rc_compressible c' = false ->
  assemble (torus (st_D st) N h plane) (st_e st) opp dt n (fun j i => INR (g j i) / INR p) dofs (st_Q st) shape cells = Some (Ok z) ->
  assemble (torus (st_D st) N' h' plane') (st_e st) opp' dt n' (fun j i => INR (g' j i) / INR p) dofs' (st_Q st) shape' cells' = Some (Ok z') ->
  forall fuel fuel' s0 s1 tr s0' s1' tr' L0 L0',
    run c (sl_ops k q (make_genData cfg F st s nu dt) st s nodes z filt) fuel s0 = Some (Ok (s1, tr)) ->
    run c' (sl_ops k q (make_genData cfg F' st s nu dt) st s nodes' z' filt') fuel' s0' = Some (Ok (s1', tr')) ->
    (sv_i s1 - sv_start s0 = sv_i s1' - sv_start s0')%nat ->
    holds_fields (st_D st) p N n g dofs (sv_x s0) L0 -> holds_fields (st_D st) p N' n' g' dofs' (sv_x s0') L0' -> turned_lattice st pi ax sz L0 L0' ->
    exists L1 L1', holds_fields (st_D st) p N n g dofs (sv_x s1) L1 /\ holds_fields (st_D st) p N' n' g' dofs' (sv_x s1') L1' /\ turned_lattice st pi ax sz L1 L1'.
Proof. exact runs_turn. Qed.
Print Assumptions C134_turned.

(** and a symmetric flow stays symmetric. *)
Theorem C134_symmetric : forall t s p N h plane opp dt n g shape dofs cells m k q cfg F nu nodes filt c z ax sz pi,
  let st := stencil_of t s in
  lattice_mesh (st_D st) p N h (st_e st) dt (st_Q st) n g shape dofs cells m -> NoDup nodes -> (forall cl j, In cl cells -> (j < n)%nat -> In (dofs cl j) nodes) ->
  (forall a, (a < st_D st)%nat -> (ax a < st_D st)%nat /\ h a = h (ax a)) -> symmetry st (axis_map ax sz) pi ->
  s <> 0 -> even_handed k t cfg -> turned_force st (axis_map ax sz) F F ->
  rc_semi_lagrangian c = true -> rc_filtering c = false -> rc_compressible c = false ->
  assemble (torus (st_D st) N h plane) (st_e st) opp dt n (fun j i => INR (g j i) / INR p) dofs (st_Q st) shape cells = Some (Ok z) ->
  forall fuel s0 s1 tr L0, run c (sl_ops k q (make_genData cfg F st s nu dt) st s nodes z filt) fuel s0 = Some (Ok (s1, tr)) ->
    holds_fields (st_D st) p N n g dofs (sv_x s0) L0 -> turned_lattice st pi ax sz L0 L0 ->
    exists L1, holds_fields (st_D st) p N n g dofs (sv_x s1) L1 /\ turned_lattice st pi ax sz L1 L1.
Proof. exact run_stays_symmetric. Qed.
Print Assumptions C134_symmetric.

(** The run of [C130_run_ex]; the force along the second axis; columns of density 1 and 2. *)
Definition unitFy (a : nat) : R := match a with 1%nat => 1 | _ => 0 end.
Definition stripes (a : nat) : lattice := {| lf := fun x i => if Z.even (x a) then rest i else 2 * rest i; lu := fun _ _ => 0 |}.
Example C134_ex : lattice_mesh 2 1 (fun _ => 2%Z) (fun _ => 1) (st_e S9) 1 9 4 g22 bilinear dofs22 grid22 e9z /\
  symmetry (stencil_of Stencil_D2Q9 1) (axis_map (fun a => 1 - a)%nat (fun _ => 1%Z)) swap_dirs /\
  turned_force (stencil_of Stencil_D2Q9 1) (axis_map (fun a => 1 - a)%nat (fun _ => 1%Z)) (Some unitF) (Some unitFy) /\
  turned_lattice (stencil_of Stencil_D2Q9 1) swap_dirs (fun a => 1 - a)%nat (fun _ => 1%Z) (stripes 0) (stripes 1) /\
  lattice_field 2 1 (fun _ => 2%Z) (lf (stripes 0)) /\ lf (stripes 0) (fun _ => 1%Z) 0%nat = 2.
Proof.
  split; [exact lattice22|]. split.
  { apply (symmetry_ext (D2Q9 1) swap_axes); [|apply swap_symmetry]. intros a b. unfold swap_axes, axis_map. ring. }
  split.
  { intros a Ha. cbn [stencil_of D2Q9 st_D] in *. unfold turned, axis_map. destruct a as [|[|a]]; [| |lia]; unfold unitF, unitFy, delta; cbn; ring. }
  split.
  { intros x y H. cbn [stencil_of D2Q9 st_D] in H. split.
    - intros i Hi. unfold stripes. cbn [lf]. rewrite (H 1%nat ltac:(lia)). unfold turned_site. change (1 - 1)%nat with 0%nat. rewrite Z.mul_1_l.
      cbn [stencil_of D2Q9 st_Q] in Hi. assert (E : rest (swap_dirs i) = rest i) by (do 9 (destruct i as [|i]; [reflexivity|]); lia). rewrite E. reflexivity.
    - intros a Ha. unfold stripes, turned. cbn [lu]. rewrite sumf_zero by (intros; ring). reflexivity. }
  split.
  - intros x y H. destruct (H 0%nat ltac:(lia)) as [w E]. unfold stripes. cbn [lf]. rewrite E. unfold period. change (Z.of_nat 1 * 2)%Z with 2%Z. rewrite Z.mul_comm, Z.even_add_mul_2. reflexivity.
  - cbn. ring.
Qed.
