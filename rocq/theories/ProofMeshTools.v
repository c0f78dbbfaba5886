(** Mesh helpers. *)
From Verif Require Import Prelude ModelSemiLagrangian ModelSEDG ProofSEDGMesh ModelSparsity ModelMeshTools SpecMeshTools.
Local Open Scope R_scope.

Lemma table_small dim o fl r : forall i, (i < children_per_face dim)%nat -> (lookup dim o fl r i < children_per_face dim)%nat.
Proof.
  unfold children_per_face, lookup. destruct (Nat.eqb dim 2); intros i Hi.
  - destruct fl, i as [|[|i]]; cbn; lia.
  - destruct o, fl, r, i as [|[|[|[|i]]]]; cbn; lia.
Qed.
Lemma table_turns dim o fl r : turning (children_per_face dim) (lookup dim o fl r) (lookup dim o fl r).
Proof.
  split; [intros i Hi; split; [apply table_small; exact Hi|reflexivity]|]. unfold children_per_face, lookup. destruct (Nat.eqb dim 2); intros i Hi.
  - destruct fl, i as [|[|i]]; try lia; first [exists 0%nat; split; [lia|reflexivity] | exists 1%nat; split; [lia|reflexivity]].
  - destruct o, fl, r, i as [|[|[|[|i]]]]; try lia;
      first [exists 0%nat; split; [lia|reflexivity] | exists 1%nat; split; [lia|reflexivity] | exists 2%nat; split; [lia|reflexivity] | exists 3%nat; split; [lia|reflexivity]].
Qed.

Section Pairs.
  Variables (n : nat) (table turn child1 child2 : nat -> nat).
  Hypothesis Ht : turning n table turn.
  Lemma pairs_in t1 : forall t2 x y, In (x, y) (make_pairs n table (fun i => child1 (turn i)) (fun i => child2 (turn i)) t1 t2) <->
    exists p, path n p /\ active_at child1 p t1 = Some x /\ active_at child2 (map table p) t2 = Some y.
  Proof.
    induction t1 as [a|a IH]; intros t2 x y; destruct t2 as [b|b]; cbn [make_pairs].
    - split.
      + intros [E|[]]. injection E as -> ->. exists []. split; [constructor|]. split; reflexivity.
      + intros (p & _ & E1 & E2). destruct p; [|discriminate]. left. cbn in E1, E2. congruence.
    - split; [intros []|]. intros (p & _ & E1 & E2). destruct p; discriminate.
    - split; [intros []|]. intros (p & _ & E1 & E2). destruct p; discriminate.
    - rewrite in_flat_map. destruct Ht as [T1 T2]. split.
      + intros (i & Hi & H). apply in_seq in Hi. apply IH in H. destruct H as (p & Hp & E1 & E2). exists (turn i :: p).
        destruct (T1 i ltac:(lia)) as [B C]. split; [constructor; assumption|]. cbn [active_at map]. split; [exact E1|]. rewrite <- C. exact E2.
      + intros (p & Hp & E1 & E2). destruct p as [|k p]; [discriminate|]. cbn [active_at map] in *. inversion Hp as [|? ? Hk Hp']; subst.
        destruct (T2 k Hk) as (i & Hi & <-). exists i. split; [apply in_seq; lia|]. apply IH. exists p. split; [exact Hp'|]. split; [exact E1|].
        destruct (T1 i Hi) as [_ ->]. exact E2.
  Qed.
  Lemma pairs_complete t1 t2 p x : refined_alike n table child1 child2 t1 t2 -> path n p -> active_at child1 p t1 = Some x ->
    exists y, active_at child2 (map table p) t2 = Some y /\ In (x, y) (make_pairs n table (fun i => child1 (turn i)) (fun i => child2 (turn i)) t1 t2).
  Proof.
    intros A Hp E. specialize (A p Hp). destruct (active_at child2 (map table p) t2) as [y|] eqn:E2.
    - exists y. split; [reflexivity|]. apply pairs_in. exists p. auto.
    - rewrite (proj2 A eq_refl) in E. discriminate.
  Qed.
End Pairs.

Theorem periodic_pairs : forall dim o fl r turn child1 child2 t1 t2, turning (children_per_face dim) (lookup dim o fl r) turn ->
  exists pairs, make_periodicity_map_dg dim o fl r (fun i => child1 (turn i)) (fun i => child2 (turn i)) t1 t2 = Ok pairs /\
  (forall x y, In (x, y) pairs <-> exists p, path (children_per_face dim) p /\ active_at child1 p t1 = Some x /\ active_at child2 (map (lookup dim o fl r) p) t2 = Some y) /\
  (refined_alike (children_per_face dim) (lookup dim o fl r) child1 child2 t1 t2 -> forall p x, path (children_per_face dim) p -> active_at child1 p t1 = Some x -> exists y, In (x, y) pairs).
Proof.
  intros dim o fl r turn child1 child2 t1 t2 Ht. eexists. split; [reflexivity|]. split.
  - intros x y. apply (pairs_in _ _ turn child1 child2 Ht).
  - intros A p x Hp E. destruct (pairs_complete _ _ turn child1 child2 Ht t1 t2 p x A Hp E) as (y & _ & I). exists y. exact I.
Qed.

(** One cell refined, the other not. *)
Definition halves (a b : nat) : tree := Refined (fun i => Active (if Nat.eqb i 0 then a else b)).
Theorem unequal_refinement : exists t1 t2 pairs, make_periodicity_map_dg 2 true false false (fun i => i) (fun i => i) t1 t2 = Ok pairs /\
  ~ refined_alike 2 (lookup 2 true false false) (fun i => i) (fun i => i) t1 t2 /\
  exists p x, path 2 p /\ active_at (fun i => i) p t1 = Some x /\ forall y, ~ In (x, y) pairs.
Proof.
  exists (halves 1 2), (Active 0), []. split; [reflexivity|]. split.
  - intros A. destruct (A [0%nat]) as [_ H]; [constructor; [lia|constructor]|]. discriminate (H eq_refl).
  - exists [0%nat], 1%nat. split; [constructor; [lia|constructor]|]. split; [reflexivity|]. intros y H. exact H.
Qed.

(** ** Boundary points *)
Section Extract.
  Context {cell : Type} (S : space cell) (m : mesh cell) (cells : list cell).
  Lemma extract_in ids d : extract_dofs S m ids cells d = true <-> exists c f id i, In c cells /\ (f < faces_per_cell S)%nat /\ me_face m c f = AtBoundary id /\
    (ids = [] \/ In id ids) /\ (i < dofs_per_cell S)%nat /\ has_support_on_face S i f = true /\ dof_index S c i = d.
  Proof.
    unfold extract_dofs. rewrite existsb_exists. split.
    - intros (c & Hc & H). apply existsb_exists in H. destruct H as (f & Hf & H). apply in_seq in Hf. destruct (me_face m c f) as [|id] eqn:E; [discriminate|].
      apply andb_true_iff in H. destruct H as [H1 H2]. apply existsb_exists in H2. destruct H2 as (i & Hi & H2). apply in_seq in Hi. apply andb_true_iff in H2. destruct H2 as [H2 H3]. apply Nat.eqb_eq in H3.
      exists c, f, id, i. split; [exact Hc|]. split; [lia|]. split; [exact E|]. split; [|split; [lia|auto]].
      destruct ids as [|k ids]; [left; reflexivity|right]. apply existsb_exists in H1. destruct H1 as (k' & Hk & Ek). apply Nat.eqb_eq in Ek. subst. exact Hk.
    - intros (c & f & id & i & Hc & Hf & E & H1 & Hi & Hs & Hd). exists c. split; [exact Hc|]. apply existsb_exists. exists f. split; [apply in_seq; lia|]. rewrite E. apply andb_true_iff. split.
      + destruct ids as [|k ids]; [reflexivity|]. destruct H1 as [H1|H1]; [discriminate|]. apply existsb_exists. exists id. split; [exact H1|apply Nat.eqb_refl].
      + apply existsb_exists. exists i. split; [apply in_seq; lia|]. apply andb_true_iff. split; [exact Hs|]. apply Nat.eqb_eq. exact Hd.
  Qed.
  Theorem counted : me_walls m <> [] -> forall n_dofs, exists l, NoDup l /\ (forall d, In d l <-> (d < n_dofs)%nat /\ on_wall S m cells d) /\ boundary_points S m n_dofs cells = length l.
  Proof.
    intros W n_dofs. exists (List.filter (extract_dofs S m (map fst (me_walls m)) cells) (List.seq 0 n_dofs)). split; [apply NoDup_filter; apply seq_NoDup|]. split; [|reflexivity].
    intros d. rewrite filter_In, in_seq, extract_in. unfold on_wall. split.
    - intros (Hd & c & f & id & i & Hc & Hf & E & H & Hi & Hs & Ed). split; [lia|]. destruct H as [H|H].
      + exfalso. destruct (me_walls m); [apply W; reflexivity|discriminate].
      + apply in_map_iff in H. destruct H as ([id' s] & Eid & H). cbn [fst] in Eid. subst id'. exists c, f, id, s, i. auto 8.
    - intros (Hd & c & f & id & s & i & Hc & Hf & E & H & Hi & Hs & Ed). split; [lia|]. exists c, f, id, i. split; [exact Hc|]. split; [exact Hf|]. split; [exact E|]. split; [|auto].
      right. apply in_map_iff. exists (id, s). auto.
  Qed.
End Extract.

(** The strip without walls: all four boundaries periodic. *)
Definition torus : mesh bool := mkMesh (fun c f => match f, c with
  | 0%nat, true => AtBoundary 0 | 0%nat, false => Shared true 1 | 1%nat, true => Shared false 0 | 1%nat, false => AtBoundary 1
  | 2%nat, _ => AtBoundary 2 | _, _ => AtBoundary 3 end)
  [(0%nat, mkPeriodic 0 1 (fun c => Ok (negb c, if c then 1%nat else 0%nat))); (1%nat, mkPeriodic 0 1 (fun c => Ok (negb c, if c then 1%nat else 0%nat)));
   (2%nat, mkPeriodic 2 3 (fun c => Ok (c, 3%nat))); (3%nat, mkPeriodic 2 3 (fun c => Ok (c, 3%nat)))] [].
Theorem all_counted : (forall d, ~ on_wall (strip false) torus two d) /\ boundary_points (strip false) torus 8 two = 8%nat.
Proof.
  split.
  - intros d (c & f & id & s & i & _ & _ & _ & H & _). exact H.
  - vm_compute. reflexivity.
Qed.

(** ** Planes *)
Lemma on_plane_ok vertices k value tol f : on_plane vertices k value tol f = true <-> lies_on vertices k value tol f.
Proof.
  unfold on_plane, lies_on. rewrite forallb_forall. split.
  - intros H v Hv. specialize (H v Hv). destruct (Rle_dec (value + tol) (v k)); [discriminate|]. destruct (Rle_dec (v k) (value - tol)); [discriminate|]. apply Rabs_def1; lra.
  - intros H v Hv. specialize (H v Hv). apply Rabs_def2 in H. destruct (Rle_dec (value + tol) (v k)); [lra|]. destruct (Rle_dec (v k) (value - tol)); [lra|reflexivity].
Qed.
Theorem plane_ids : forall dim cells vertices k value id tol ids, (k < dim)%nat -> exists ids', set_boundary_ids_at_hyperplane dim cells vertices k value id tol ids = Ok ids' /\
  forall f, ((exists c, In c cells /\ In f c) /\ lies_on vertices k value tol f -> ids' f = Some id) /\ (~ lies_on vertices k value tol f -> ids' f = ids f).
Proof.
  intros dim cells vertices k value id tol ids Hk. unfold set_boundary_ids_at_hyperplane. destruct (Nat.ltb_spec k dim); [|lia]. eexists. split; [reflexivity|]. intros f.
  assert (G : forall l s, ((In f l \/ s f = Some id) /\ lies_on vertices k value tol f -> fold_left (fun s f => if on_plane vertices k value tol f then fun g => if Nat.eqb g f then Some id else s g else s) l s f = Some id) /\
    (~ lies_on vertices k value tol f -> fold_left (fun s f => if on_plane vertices k value tol f then fun g => if Nat.eqb g f then Some id else s g else s) l s f = s f)).
  { induction l as [|x l IH]; intros s; cbn [fold_left].
    - split; [|reflexivity]. intros [[[]|H0] _]. exact H0.
    - destruct (IH (if on_plane vertices k value tol x then fun g => if Nat.eqb g x then Some id else s g else s)) as [I1 I2]. split.
      + intros [[[->|H0]|H0] L]; apply I1; (split; [|exact L]).
        * right. rewrite (proj2 (on_plane_ok vertices k value tol f) L), Nat.eqb_refl. reflexivity.
        * left. exact H0.
        * right. destruct (on_plane vertices k value tol x); [|exact H0]. destruct (Nat.eqb f x); [reflexivity|exact H0].
      + intros N. rewrite (I2 N). destruct (on_plane vertices k value tol x) eqn:E; [|reflexivity]. destruct (Nat.eqb_spec f x) as [->|]; [|reflexivity]. exfalso. apply N. apply on_plane_ok. exact E. }
  destruct (G (concat cells) ids) as [G1 G2]. split; [|exact G2]. intros [(c & Hc & Hf) L]. apply G1. split; [|exact L]. left. apply in_concat. exists c. auto.
Qed.

(** Two unit squares, face 1 between them. *)
Definition square_faces (f : nat) : list (nat -> R) :=
  let at_x x := [(fun k => match k with 0%nat => x | _ => 0 end); (fun k => match k with 0%nat => x | _ => 1 end)] in
  let at_y x y := [(fun k => match k with 0%nat => x | _ => y end); (fun k => match k with 0%nat => x + 1 | _ => y end)] in
  match f with 0%nat => at_x 0 | 1%nat => at_x 1 | 2%nat => at_x 2 | 3%nat => at_y 0 0 | 4%nat => at_y 0 1 | 5%nat => at_y 1 0 | _ => at_y 1 1 end.
Definition square_ids (f : nat) : option nat := if Nat.eqb f 1 then None else Some 0%nat.
Definition squares : list (list nat) := [[0; 1; 3; 4]; [1; 2; 5; 6]]%nat.
Theorem interior_face : exists ids', set_boundary_ids_at_hyperplane 2 squares square_faces 0 1 7 (1 / 10000000000) square_ids = Ok ids' /\ square_ids 1 = None /\ ids' 1%nat = Some 7%nat.
Proof.
  destruct (plane_ids 2 squares square_faces 0 1 7 (1 / 10000000000) square_ids ltac:(lia)) as (ids' & E & H). exists ids'. split; [exact E|]. split; [reflexivity|].
  apply (proj1 (H 1%nat)). split; [exists [0; 1; 3; 4]%nat; split; [left; reflexivity|right; left; reflexivity]|].
  intros v [<-|[<-|[]]]; cbn; replace (1 - 1) with 0 by ring; rewrite Rabs_R0; lra.
Qed.

Lemma tables_turn : forall orientation flip rotation i,
  ((i < 4)%nat -> (lookup 3 orientation flip rotation i < 4)%nat /\ place (lookup 3 orientation flip rotation i) = turned orientation flip rotation (place i)) /\
  ((i < 2)%nat -> lookup 2 orientation flip rotation i = if flip then (1 - i)%nat else i).
Proof.
  intros [] [] [] i; (split; intros H;
    [destruct i as [|[|[|[|i]]]]; [vm_compute; split; [lia|reflexivity]..|lia]
    |destruct i as [|[|i]]; [vm_compute; reflexivity..|lia]]).
Qed.
