(** Equilibrium boundaries: populations of the quartic equilibrium; witnesses in the corner of a cavity. *)
From Coq Require Import Permutation.
From Verif Require Import Prelude BigSum ModelStencils SpecCollision ModelEquilibria SpecSetup SpecNear ModelSemiLagrangian SpecSemiLagrangian ModelWalls SpecWalls ProofWalls ProofWalls2
  ProofWalls6 ProofWalls7 ProofWalls8 ProofWalls10 ProofWalls11 ModelThermalWalls ProofThermal ProofThermalNode ProofThermalFields ProofCollideNode ProofCompressible ProofNearCollide ProofPhysical ProofSemiLagrangian ProofSemiLagrangian2 ProofThermalNode2.
Local Open Scope R_scope.

Lemma equilibrium_value t s u T cfg : s <> 0 ->
  equilibrium_populations QuarticEquilibrium cfg (stencil_of t s) s 1 u T (sl_equilibrium (stencil_of t s) u T).
Proof.
  intros Hs. eexists. split; [reflexivity|]. intros i Hi. rewrite <- (sl_scale (stencil_of t s) s u T i Hs).
  - rewrite sl_quartic; [reflexivity|]. destruct t; cbn [st_D unscale stencil_of]; auto.
  - assert (P := cs2_pos t s Hs). lra.
Qed.

Section Total.
  Context {cell : Type} (M : mesh cell) (st : stencil) (scaling : R) (opp : nat -> nat).
  Lemma operate_fg_total e w cs2 opp' bc0 bc t m cells : (forall b Tw, bc b <> ThermalBC Tw) -> forall f f' fg,
    operate M e w cs2 opp' bc0 t cells m f = Ok f' -> exists fg', operate_fg M st scaling opp bc t cells m fg = Ok fg'.
  Proof.
    intros Hb. assert (R1 : forall l fg, exists fg', run_hits M st scaling opp bc t l fg = Ok fg').
    { induction l as [|[x h] l IH]; intros [f g]; cbn [run_hits]; [eexists; reflexivity|]. unfold apply_hit_fg.
      destruct (bc (hit_boundary h)) as [c|u T|Tw] eqn:E; [apply IH|apply IH|]. elim (Hb (hit_boundary h) Tw E). }
    induction cells as [|c cells IH]; intros f f' fg H; cbn [operate operate_fg] in *; [eexists; reflexivity|].
    unfold operate_cell in H. destruct (quadrature M c (elements (m c))) as [q| |]; try discriminate. cbn [obind] in *.
    rewrite points_run. destruct (R1 (flat_map (fun xh => map (pair (fst xh)) (snd xh)) q) fg) as [fg1 ->]. cbn [obind].
    exact (IH _ _ fg1 H).
  Qed.
End Total.

(** D2Q9, fluid at rest at temperature 2 prescribed at all faces. *)
Notation S9 := (stencil_of Stencil_D2Q9 1).
Definition hot_boundary (b : nat) : condition_fg := EquilibriumBC (fun _ _ _ => 0) 2.
Lemma equilibrium_setting : exists f' g' z hs,
  assemble O4 e9 opp9 (1 / 2) 1 corner_node dofs1 9 one_shape [tt] = Some (Ok z) /\
  all_hits O4 e9 opp9 (1 / 2) 1 corner_node dofs1 9 [tt] = Some (Ok hs) /\
  stream_fg O4 S9 1 opp9 (1 / 2) hot_boundary (14 / 10) z (hit_list O4 same1 keep1 hs) [tt] (fun a _ => w9 a, fun a _ => 3 * w9 a, 0) = Ok (f', g', 0 + 1 / 2) /\
  hits_for 6 0 hs <> [].
Proof.
  destruct first_order_setting as (f1 & z & hs & HA & HH & HS & B6 & _).
  unfold stream in HS. destruct (operate O4 e9 w9 cs9 opp9 (fun _ => FirstOrderBB) 0 [tt] (hit_list O4 same1 keep1 hs) (multiply z (fun a _ => w9 a))) as [f2| |] eqn:E; try discriminate.
  destruct (operate_fg_total O4 S9 1 opp9 e9 w9 cs9 opp9 (fun _ => FirstOrderBB) hot_boundary 0 _ [tt] ltac:(discriminate) _ _
    (multiply z (fun a _ => w9 a), fun a _ => 3 * w9 a) E) as [[f' g'] Hfg].
  exists f', (applyToG S9 hot_boundary (14 / 10) [tt] (hit_list O4 same1 keep1 hs) f' (multiply z g')), z, hs.
  split; [exact HA|]. split; [exact HH|]. split; [|exact B6].
  exact (f_equal (fun o => obind o (fun fg => Ok (fst fg, applyToG S9 hot_boundary (14 / 10) [tt] (hit_list O4 same1 keep1 hs) (fst fg) (multiply z (snd fg)), 0 + 1 / 2))) Hfg).
Qed.
Lemma hot_value : sl_equilibrium S9 (fun _ => 0) 2 6 = 5 / 72.
Proof.
  unfold sl_equilibrium. change (st_D S9) with 2%nat. cbn [sumf].
  assert (E0 : st_e S9 6 0%nat = -1) by (apply e9_68). assert (E1 : st_e S9 6 1%nat = 1) by apply e9_68.
  assert (W : st_w S9 6 = 1 / 36) by exact (w9_val 6 ltac:(lia)).
  rewrite E0, E1, W. unfold delta. cbn [Nat.eqb].
  assert (C : st_cs2 S9 = 1 / 3) by (change (st_cs2 S9) with cs9; exact cs9_val). rewrite C. field.
Qed.
Lemma boundary_temperature_refuted : exists f' g' z hs,
  assemble O4 e9 opp9 (1 / 2) 1 corner_node dofs1 9 one_shape [tt] = Some (Ok z) /\
  all_hits O4 e9 opp9 (1 / 2) 1 corner_node dofs1 9 [tt] = Some (Ok hs) /\
  stream_fg O4 S9 1 opp9 (1 / 2) hot_boundary (14 / 10) z (hit_list O4 same1 keep1 hs) [tt] (fun a _ => w9 a, fun a _ => 3 * w9 a, 0) = Ok (f', g', 0 + 1 / 2) /\
  hits_for 6 0 hs <> [] /\ 0 < f' 6%nat 0%nat /\ g' 6%nat 0%nat = 1 / 2 * (f' 6%nat 0%nat * 2 * (2 / (14 / 10 - 1) - 2)).
Proof.
  destruct equilibrium_setting as (f' & g' & z & hs & HA & HH & HS & B6). exists f', g', z, hs. split; [exact HA|]. split; [exact HH|]. split; [exact HS|]. split; [exact B6|].
  destruct (equilibrium_stream O4 S9 1 opp9 (1 / 2) same1 keep1 hot_boundary keep1_ok (14 / 10) z [tt] hs _ _ _ f' g' _ 6 0 (fun _ => 0) 2 same1_ok
    ltac:(constructor; [intros []|constructor]) ltac:(intros h _; destruct (hit_cell h); left; reflexivity) HS B6) as (Ef & Eg & _).
  - intros h _. eexists. split; reflexivity.
  - discriminate.
  - rewrite Eg, Ef, hot_value. change (INR (st_D S9)) with (INR 2). replace (INR 2) with 2 by (cbn; ring). split; lra.
Qed.

(** A node at a thermal wall that takes direction 1 from a node without a wall. *)
Definition box : mesh unit :=
  mkMesh 3 (fun _ x => Some x) (fun _ u => u) (fun _ _ => (fun _ => 0, fun _ => 0)) (fun _ f => OtherBoundary f) (fun _ => true).
Definition wall_hit : hit unit := mkHit 0 1 0 (fun _ => 0) 2 tt.
Definition from_inside : list entry := [(0%nat, 0%nat, 0%nat, 1%nat, 1)].
Notation S45 := (stencil_of Stencil_D3Q45 1).
Lemma late_setting Tw (opp : nat -> nat) g : exists f' g',
  stream_fg box S45 1 opp (1 / 2) (fun _ => ThermalBC Tw) (14 / 10) from_inside (hit_list box same1 keep1 [wall_hit]) [tt] (fun a _ => rest a, g, 0) = Ok (f', g', 0 + 1 / 2).
Proof.
  assert (HO : exists fg, operate_fg box S45 1 opp (fun _ => ThermalBC Tw) 0 [tt] (hit_list box same1 keep1 [wall_hit]) (multiply from_inside (fun a _ => rest a), g) = Ok fg).
  { cbn [operate_fg].
    assert (Eq : exists q, quadrature box tt (elements (hit_list box same1 keep1 [wall_hit] tt)) = Ok [(q, [wall_hit])]).
    { exists (snap_point (fun _ => 0)). cbn [hit_list fold_left elements quadrature].
      assert (I : all_inside 3 (snap_point (fun _ => 0)) = true).
      { apply all_inside_iff. intros i Hi. unfold snap_point. rewrite snap_zero. lra. }
      assert (G : getPoint box tt (fun _ => 0) = Ok (snap_point (fun _ => 0))) by (unfold getPoint; cbn [to_unit box dim]; rewrite I; reflexivity).
      change (obind (getPoint box tt (fun _ => 0)) (fun u => Ok [(u, [wall_hit])]) = Ok [(snap_point (fun _ => 0), [wall_hit])]). rewrite G. reflexivity. }
    destruct Eq as [q ->]. cbn [obind apply_points_fg apply_hits_fg]. unfold apply_hit_fg.
    set (F := multiply from_inside (fun a _ => rest a)).
    assert (EF : forall a, node_of F (hit_index wall_hit) a = rest a).
    { intros [|a]; [reflexivity|]. unfold node_of, F. cbn [multiply wall_hit hit_index]. unfold apply_row, from_inside. cbn [fold_right]. unfold entry_term.
      destruct (_ && _)%bool; cbn [rest]; ring. }
    assert (Hd : dense S45 (node_of F (hit_index wall_hit))).
    { assert (Hr := rest_dense Stencil_D3Q45 1). unfold dense, mass in *. rewrite (sumf_ext _ _ rest) by (intros; apply EF). exact Hr. }
    destruct (thermal_total 1 (node_of F (hit_index wall_hit)) (node_of g (hit_index wall_hit)) Tw Hd) as [o Ho]. unfold thermal_node. rewrite Ho. cbn [obind]. eexists. reflexivity. }
  destruct HO as [[f' g'] HO]. eexists _, _.
  exact (f_equal (fun o => obind o (fun fg => Ok (fst fg, applyToG S45 (fun _ => ThermalBC Tw) (14 / 10) [tt] (hit_list box same1 keep1 [wall_hit]) (fst fg) (multiply from_inside (snd fg)), 0 + 1 / 2))) HO).
Qed.
Lemma late_example Tw (opp : nat -> nat) g : exists f' g',
  stream_fg box S45 1 opp (1 / 2) (fun _ => ThermalBC Tw) (14 / 10) from_inside (hit_list box same1 keep1 [wall_hit]) [tt] (fun a _ => rest a, g, 0) = Ok (f', g', 0 + 1 / 2) /\
  g' 1%nat 0%nat = g 1%nat 1%nat.
Proof.
  destruct (late_setting Tw opp g) as (f' & g' & HS). exists f', g'. split; [exact HS|].
  rewrite (thermal_late box S45 1 opp (1 / 2) same1 keep1 (fun _ => ThermalBC Tw) keep1_ok (14 / 10) from_inside [tt] [wall_hit] _ g 0 f' g' _ 1 0 same1_ok
    ltac:(constructor; [intros []|constructor]) ltac:(intros h _; destruct (hit_cell h); left; reflexivity) HS).
  - cbn [multiply]. unfold apply_row, from_inside, entry_term. cbn [fold_right Nat.eqb andb]. ring.
  - lia.
  - discriminate.
  - intros b j v h Tw' [E|[]] [<-|[]] Hj. assert (1%nat = j) by congruence. subst j. discriminate.
Qed.

Lemma thermal_stencil t s Tw f g : t <> Stencil_D3Q45 -> thermal_node (stencil_of t s) s Tw f g = Throw.
Proof. intros H. unfold thermal_node, thermal_values. destruct t; try reflexivity. contradiction. Qed.
