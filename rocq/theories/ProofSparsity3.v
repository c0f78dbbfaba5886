(** The sparsity pattern on the strip of two cells: a channel, and other boundary ids. *)
From Verif Require Import Prelude ModelStencils ModelSemiLagrangian ModelSEDG SpecSEDG ProofSEDG ProofSEDGMain ProofSEDGStencil ProofSEDGMesh ProofSEDGWitness ModelSparsity SpecSparsity ProofSparsity ProofSparsity2.
Local Open Scope R_scope.

(** The strip with periodic ends [x1], [x2] and walls [y1], [y2]. *)
Definition ends (x1 x2 : nat) : periodic bool := mkPeriodic x1 x2 (fun c => Ok (negb c, if c then 1%nat else 0%nat)).
Definition ids (x1 x2 y1 y2 : nat) : mesh bool := mkMesh (fun c f => match f, c with
  | 0%nat, true => AtBoundary x1 | 0%nat, false => Shared true 1 | 1%nat, true => Shared false 0 | 1%nat, false => AtBoundary x2
  | 2%nat, _ => AtBoundary y1 | _, _ => AtBoundary y2 end) [(x1, ends x1 x2); (x2, ends x1 x2)] [(y1, true); (y2, true)].
(** The strip with walls 2 and 3. *)
Definition channel : space bool := let s := strip true in mkSpace bool (sp_dim s) (dofs_per_cell s) (n_quadrature_points s) (n_face_points s) (faces_per_cell s)
  (shape_value s) (face_shape_value s) (shape_grad s) (JxW s) (face_JxW s) (face_normal s) (face_point s) (has_support_on_face s) (dof_index s)
  (fun c f => match f with 0%nat => Beyond (negb c) 1 | 1%nat => Beyond (negb c) 0 | 2%nat => Outside 2 | _ => Outside 3 end).

Lemma channel_good : good_mesh channel (fun i => i) strip_fd two.
Proof.
  destruct (strip_good true) as [G1 G2 G3 G4 G5 G6 G7 G8 G9]. constructor.
  - exact G1.
  - exact G2.
  - destruct G3 as [C1 C2 C3 C4 C5 C6]. constructor; [exact C1|exact C2|exact C3|exact C4|exact C5|exact C6].
  - exact G4.
  - exact G5.
  - intros c f c' f' Hc Hf E. assert (E' : at_face (strip true) c f = Beyond c' f').
    { destruct f as [|[|[|f]]]; [exact E|exact E|discriminate E|discriminate E]. }
    destruct (G6 c f c' f' Hc Hf E') as (I & Hf' & B & R). split; [exact I|]. split; [exact Hf'|]. split; [|exact R].
    destruct f' as [|[|[|f']]]; [exact B|exact B|discriminate B|discriminate B].
  - exact G7.
  - exact G8.
  - exact G9.
Qed.
Lemma channel_runs central s0 : exists s, reassemble channel S9 central still two s0 = Ok s.
Proof. apply (assembles channel (fun i => i) strip_fd Stencil_D2Q9 1 still two eq_refl ltac:(lra) channel_good). intros c f b _ _ _. discriminate. Qed.

Ltac cases f := destruct f as [|[|[|[|f]]]]; try (cbn in *; lia).
Lemma built_strip x1 x2 : (1 < x1)%nat -> (1 < x2)%nat -> built_on (strip true) (ids x1 x2 0 1) two.
Proof.
  intros H1 H2 c f _ Hf. cbn [strip faces_per_cell] in Hf. destruct x1 as [|[|x1]]; [lia|lia|]. destruct x2 as [|[|x2]]; [lia|lia|].
  cases f; destruct c; try reflexivity; unfold assembled_side, find_periodic, ids; cbn [me_face me_periodic List.find fst]; rewrite ?Nat.eqb_refl; try reflexivity.
  destruct (Nat.eqb (Datatypes.S (Datatypes.S x1)) (Datatypes.S (Datatypes.S x2))); reflexivity.
Qed.
Lemma built_channel : built_on channel (ids 0 1 2 3) two.
Proof. intros c f _ Hf. cbn [channel strip faces_per_cell] in Hf. cases f; destruct c; reflexivity. Qed.
Lemma keys_ok x1 x2 y1 y2 : periodic_keys (ids x1 x2 y1 y2).
Proof.
  unfold periodic_keys, find_periodic, ids. cbn [me_periodic List.find fst snd]. split.
  - intros k p [E|[E|[]]]; injection E; intros <- _; cbn [ends pb_1 pb_2]; rewrite Nat.eqb_refl; (split; [reflexivity|]); destruct (Nat.eqb x1 x2); rewrite ?Nat.eqb_refl; reflexivity.
  - intros k p. destruct (Nat.eqb_spec x1 k) as [->|N]; [intros E; injection E as <-; left; reflexivity|].
    destruct (Nat.eqb_spec x2 k) as [->|N2]; [intros E; injection E as <-; right; reflexivity|discriminate].
Qed.
Lemma walls_ok (sp : space bool) y1 y2 x1 x2 : (forall c f b, at_face sp c f = Outside b -> b = y1 \/ b = y2) -> walls_supported sp (ids x1 x2 y1 y2) two.
Proof.
  intros H. split.
  - intros w [<-|[<-|[]]]; reflexivity.
  - intros c f b _ _ E. destruct (H c f b E) as [->| ->]; cbn; auto.
Qed.
Lemma order_channel : same_order channel two strip_fd.
Proof.
  intros c f c' f' q q' _ Hf E Hq Hq'. cbn [channel strip faces_per_cell at_face n_face_points] in *. cases f; try discriminate; injection E as <- <-; cbn [strip_fd]; lia.
Qed.
Lemma order_strip : same_order (strip true) two strip_fd.
Proof.
  intros c f c' f' q q' _ Hf E Hq Hq'. cbn [strip faces_per_cell at_face n_face_points] in *. cases f; try discriminate; injection E as <- <-; cbn [strip_fd]; lia.
Qed.
Lemma exist_channel : faces_exist channel two.
Proof. intros c f c' f' _ Hf E. cbn [channel strip faces_per_cell at_face] in *. cases f; try discriminate; injection E as <- <-; lia. Qed.
Lemma exist_strip : faces_exist (strip true) two.
Proof. intros c f c' f' _ Hf E. cbn [strip faces_per_cell at_face] in *. cases f; try discriminate; injection E as <- <-; lia. Qed.
Lemma ids_channel : ids_are_faces channel (ids 0 1 2 3) two.
Proof. intros c f id _ Hf. cbn [channel strip faces_per_cell] in Hf. cases f; destruct c; cbn [ids me_face]; intros E; try discriminate; injection E as <-; reflexivity. Qed.

(** The entry that couples the two ends. *)
Lemma end_entry s : reassemble (strip true) S9 false still two empty_system = Ok s -> exists v, v <> 0 /\ In (0%nat, 0%nat, 2%nat, 7%nat, v) (fst s).
Proof.
  intros E. assert (Hco := gm_collocated _ _ _ _ (strip_good true)).
  assert (Hi : exists x, internal_face (strip true) S9 false (QM (strip true) (fun i => i)) (FM (strip true) strip_fd) true 1 0 false 1 = Ok x).
  { unfold internal_face. apply collect_total. intros q Hq. apply in_seq in Hq. cbn [strip n_face_points] in Hq.
    rewrite (FM_at _ _ _ Hco) by (cbn [strip faces_per_cell n_face_points]; lia). cbn [obind]. rewrite (FM_at _ _ _ Hco) by (cbn [strip faces_per_cell n_face_points]; lia). cbn [obind strip face_shape_value].
    rewrite !Nat.eqb_refl. destruct (Rlt_dec 0 1); [|lra]. cbv zeta. destruct (Rlt_dec _ 0); eexists; reflexivity. }
  destruct Hi as (x & Ex).
  assert (X : exn (strip true) S9 true 1 0 1 = -1).
  { assert (V := outward_value true 1 true 0 1 ltac:(lia) ltac:(lia)). unfold outward in V. unfold exn. rewrite V. reflexivity. }
  assert (M : inverse_mass (strip true) (QM (strip true) (fun i => i)) true (strip_fd 0 1) = 4).
  { unfold inverse_mass, mass_matrix. unfold QM. rewrite q_of_dof by (cbn [strip dofs_per_cell strip_fd]; lia). change (1 / (0 + 1 * 1 * (1 / 4)) = 4). field. }
  exists 2. split; [lra|]. apply (reassemble_in (strip true) S9 false still (fun i => i) strip_fd Hco two s E). exists true, 1%nat. split; [left; reflexivity|]. split; [left; reflexivity|].
  right. exists 0%nat, (x, []). split; [left; reflexivity|]. split.
  - unfold face_result. cbn [strip at_face negb]. fold (strip true). change (at_face (strip true) true 0) with (@Beyond bool false 1). cbv iota beta. rewrite Ex. reflexivity.
  - cbn [fst]. apply (internal_in (strip true) S9 false (fun i => i) strip_fd Hco true 1 0 false 1 x ltac:(cbn [strip faces_per_cell]; lia) ltac:(cbn [strip faces_per_cell]; lia) Ex).
    exists 1%nat. split; [cbn [strip n_face_points]; lia|]. cbv zeta. rewrite X, M. destruct (Rlt_dec (-1) 0); [|lra]. right. left.
    change (dof_index (strip true) true (strip_fd 0 1)) with 2%nat. change (dof_index (strip true) false (strip_fd 1 1)) with 7%nat.
    change (face_JxW (strip true) true 0 1) with (1 / 2). change (1 - 1)%nat with 0%nat. replace (- (1 / 2 * -1) * 4) with 2 by field. reflexivity.
Qed.

Lemma strip_face_dofs f : (f < 4)%nat -> face_dofs (strip true) f = Ok (match f with 0 => [0; 2] | 1 => [1; 3] | 2 => [0; 1] | _ => [2; 3] end)%nat.
Proof. intros Hf. rewrite (face_dofs_ok _ _ _ (gm_collocated _ _ _ _ (strip_good true))) by exact Hf. destruct f as [|[|[|[|f]]]]; [reflexivity..|lia]. Qed.
(** Walls numbered first. *)
Notation walls_first := (ids 2 3 0 1).
Lemma no_coupling c f : (f < 4)%nat -> match f, c with 0%nat, true => True | 1%nat, false => True | 2%nat, false => True | 3%nat, true => True | _, _ => False end -> face_pattern (strip true) walls_first c f = Ok [].
Proof. intros Hf H. unfold face_pattern. destruct f as [|[|[|[|f]]]], c; try contradiction; try lia; reflexivity. Qed.
Lemma coupling c f : (f < 4)%nat -> match f, c with 0%nat, false => True | 1%nat, true => True | 2%nat, true => True | 3%nat, false => True | _, _ => False end ->
  face_pattern (strip true) walls_first c f = Ok (match f with 1 => [(1, 4); (3, 6)] | 0 => [(4, 1); (6, 3)] | 2 => [(0, 5); (1, 7)] | _ => [(6, 0); (7, 2)] end)%nat.
Proof.
  intros Hf H. unfold face_pattern. destruct f as [|[|[|[|f]]]], c; try contradiction; try lia.
  - change (pattern_side (strip true) walls_first false 0) with (Ok (Some (true, 1%nat))). cbn [obind]. rewrite !strip_face_dofs by lia. reflexivity.
  - change (pattern_side (strip true) walls_first true 1) with (Ok (Some (false, 0%nat))). cbn [obind]. rewrite !strip_face_dofs by lia. reflexivity.
  - change (pattern_side (strip true) walls_first true 2) with (Ok (Some (false, 1%nat))). cbn [obind]. rewrite !strip_face_dofs by lia. reflexivity.
  - change (pattern_side (strip true) walls_first false 3) with (Ok (Some (true, 0%nat))). cbn [obind]. rewrite !strip_face_dofs by lia. reflexivity.
Qed.
Lemma strip_cell c : cell_pattern (strip true) walls_first c = Ok (if c then list_prod [0; 1; 2; 3] [0; 1; 2; 3] ++ [(1, 4); (3, 6); (0, 5); (1, 7)] else list_prod [4; 5; 6; 7] [4; 5; 6; 7] ++ [(4, 1); (6, 3); (6, 0); (7, 2)])%nat.
Proof.
  unfold cell_pattern. change (List.seq 0 (faces_per_cell (strip true))) with [0; 1; 2; 3]%nat. cbn [collect].
  destruct c.
  - rewrite (no_coupling true 0), (coupling true 1), (coupling true 2), (no_coupling true 3) by (try exact I; lia). reflexivity.
  - rewrite (coupling false 0), (no_coupling false 1), (no_coupling false 2), (coupling false 3) by (try exact I; lia). reflexivity.
Qed.
Lemma missing_place : exists pattern, update_pattern (strip true) walls_first S9 two = Ok pattern /\ ~ In (2, 7)%nat (pattern 0%nat 0%nat).
Proof.
  unfold update_pattern, sparser_pattern, two. cbn [collect]. rewrite !strip_cell. cbn [obind].
  destruct (collect_total (fun w : nat * bool => if snd w then Ok (couple_wall (strip true) walls_first (fst w) [true; false]) else Throw) (me_walls walls_first)) as (l & El).
  - intros w [<-|[<-|[]]]; eexists; reflexivity.
  - unfold wall_pattern. rewrite El. cbn [obind]. change (st_opp S9 1) with (Some 3%nat). change (st_Q S9 - 1)%nat with 8%nat. cbv iota beta. cbn [Nat.leb Nat.eqb Nat.ltb].
    eexists. split; [reflexivity|]. cbn [Nat.eqb andb]. intros H. cbn in H. repeat (destruct H as [H|H]; [discriminate H|]). exact H.
Qed.
Theorem missing : exists s pattern, reassemble (strip true) S9 false still two empty_system = Ok s /\ update_pattern (strip true) walls_first S9 two = Ok pattern /\
  exists i j v, v <> 0 /\ In (0%nat, 0%nat, i, j, v) (fst s) /\ ~ In (i, j) (pattern 0%nat 0%nat).
Proof.
  destruct (strip_runs true false still empty_system (still_ok 0) (still_ok 1)) as (s & E). destruct missing_place as (p & Ep & Np). destruct (end_entry s E) as (v & Hv & I).
  exists s, p. split; [exact E|]. split; [exact Ep|]. exists 2%nat, 7%nat, v. auto.
Qed.
Theorem outside_faces : exists s, reassemble (strip true) S9 false still two empty_system = Ok s /\ update_pattern (strip true) (ids 10 11 0 1) S9 two = UB.
Proof.
  destruct (strip_runs true false still empty_system (still_ok 0) (still_ok 1)) as (s & E). exists s. split; [exact E|]. reflexivity.
Qed.
Lemma strip_walls x1 x2 : walls_supported (strip true) (ids x1 x2 0 1) two.
Proof. apply walls_ok. intros c f b E. cbn [strip at_face] in E. destruct f as [|[|[|f]]]; try discriminate; injection E as <-; auto. Qed.
Theorem missing_ids : exists (m : mesh bool) (s : system) (pattern : nat -> nat -> list (nat * nat)),
  collocated (strip true) (fun i => i) strip_fd /\ built_on (strip true) m two /\ faces_exist (strip true) two /\ periodic_keys m /\ walls_supported (strip true) m two /\
  same_order (strip true) two strip_fd /\
  reassemble (strip true) S9 false still two empty_system = Ok s /\ update_pattern (strip true) m S9 two = Ok pattern /\
  exists i j v, v <> 0 /\ In (0%nat, 0%nat, i, j, v) (fst s) /\ ~ In (i, j) (pattern 0%nat 0%nat).
Proof.
  destruct missing as (s & p & E & Ep & H). exists walls_first, s, p. split; [exact (gm_collocated _ _ _ _ (strip_good true))|]. split; [apply built_strip; lia|]. split; [exact exist_strip|].
  split; [apply keys_ok|]. split; [apply strip_walls|]. split; [exact order_strip|]. auto.
Qed.
Theorem outside_ids : exists (m : mesh bool) (s : system),
  collocated (strip true) (fun i => i) strip_fd /\ built_on (strip true) m two /\ faces_exist (strip true) two /\ periodic_keys m /\ walls_supported (strip true) m two /\
  same_order (strip true) two strip_fd /\
  reassemble (strip true) S9 false still two empty_system = Ok s /\ update_pattern (strip true) m S9 two = UB.
Proof.
  destruct outside_faces as (s & E & Ep). exists (ids 10 11 0 1), s. split; [exact (gm_collocated _ _ _ _ (strip_good true))|]. split; [apply built_strip; lia|]. split; [exact exist_strip|].
  split; [apply keys_ok|]. split; [apply strip_walls|]. split; [exact order_strip|]. auto.
Qed.
