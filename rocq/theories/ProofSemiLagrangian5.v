(** Examples, counterexamples and corollaries for the semi-Lagrangian streaming. *)
From Verif Require Import Prelude BigSum ModelSemiLagrangian SpecSemiLagrangian ProofSemiLagrangian ProofSemiLagrangian2
  ProofSemiLagrangian3 ProofSemiLagrangian4.
Local Open Scope R_scope.

Definition pt2 (x y : R) : point := fun i => if Nat.eqb i 0 then x else y.

Lemma nearly2 x y : - (1 / 10 ^ 10) < x < 1 + 1 / 10 ^ 10 -> - (1 / 10 ^ 10) < y < 1 + 1 / 10 ^ 10 -> nearly_inside 2 (pt2 x y).
Proof. intros Hx Hy i Hi. unfold pt2. destruct (Nat.eqb i 0); assumption. Qed.

(** Which face is crossed first if only one is possible. *)
Lemma only_face pi po d0 s0 : nearly_inside 2 pi -> ~ nearly_inside 2 po ->
  (forall d s, (d < 2)%nat -> s = 0%nat \/ s = 1%nat -> beyond po d s -> d = d0 /\ s = s0) ->
  exists k, crossed_unit 2 pi po = Ok (Some k) /\ cr_face k = (2 * d0 + s0)%nat /\ cr_point k d0 = INR s0 /\ inside 2 (cr_point k).
Proof.
  intros Hpi Hpo Hu. destruct (crossed_unit_spec 2 pi po ltac:(lia) Hpi) as (r & E & Hn & Hk).
  destruct r as [k|]; [|exfalso; apply Hpo; apply Hn; reflexivity]. exists k. split; [exact E|].
  destruct (Hk k eq_refl) as (d & s & Hd & (Ef & Hs) & Hb & Hp & Hi & _). destruct (Hu d s Hd Hs Hb) as [-> ->]. auto.
Qed.

Lemma beyond_lt2 po d0 s0 :
  (if Nat.eqb d0 0 then - (1 / 10 ^ 10) < po 1%nat < 1 + 1 / 10 ^ 10 else - (1 / 10 ^ 10) < po 0%nat < 1 + 1 / 10 ^ 10) ->
  (d0 = 0%nat \/ d0 = 1%nat) -> (s0 = 0%nat /\ po d0 < 1 \/ s0 = 1%nat /\ 0 < po d0) ->
  forall d s, (d < 2)%nat -> s = 0%nat \/ s = 1%nat -> beyond po d s -> d = d0 /\ s = s0.
Proof.
  intros Ho Hd0 Hs0 d s Hd Hs Hb. unfold beyond in Hb.
  destruct d as [|[|d]]; [| |lia]; destruct Hd0 as [-> | ->]; cbn [Nat.eqb] in *; destruct Hs as [-> | ->]; cbn [Nat.eqb] in *;
    destruct Hs0 as [[-> H]|[-> H]]; try (split; reflexivity); exfalso; lra.
Qed.

Lemma unit_example : nearly_inside 2 (pt2 (1 / 2) (1 / 2)) /\
  (exists k, crossed_unit 2 (pt2 (1 / 2) (1 / 2)) (pt2 (3 / 2) (3 / 4)) = Ok (Some k) /\ cr_face k = 1%nat) /\
  crossed_unit 2 (pt2 (1 / 2) (1 / 2)) (pt2 1 1) = Ok None.
Proof.
  assert (A : nearly_inside 2 (pt2 (1 / 2) (1 / 2))) by (apply nearly2; lra). split; [exact A|]. split.
  - destruct (only_face (pt2 (1 / 2) (1 / 2)) (pt2 (3 / 2) (3 / 4)) 0 1 A) as (k & E & F & _).
    + intros H. assert (X := H 0%nat ltac:(lia)). unfold pt2 in X. cbn [Nat.eqb] in X. lra.
    + apply beyond_lt2; unfold pt2; cbn [Nat.eqb]; [lra|left; reflexivity|right; split; [reflexivity|lra]].
    + exists k. auto.
  - destruct (crossed_unit_spec 2 (pt2 (1 / 2) (1 / 2)) (pt2 1 1) ltac:(lia) A) as (r & E & Hn & _).
    rewrite E. f_equal. apply Hn. apply nearly2; lra.
Qed.

(** ** The unit square with its planes *)
Definition unit_square : mesh unit :=
  mkMesh 2 (fun _ x => Some x) (fun _ x => x)
    (fun _ f => (if Nat.eqb f 1 then pt2 1 0 else if Nat.eqb f 3 then pt2 0 1 else pt2 0 0,
                 if Nat.ltb f 2 then pt2 1 0 else pt2 0 (-1)))
    (fun _ f => OtherBoundary f) (fun _ => true).
Definition square_sign (f : nat) : R := if Nat.eqb f 0 then -1 else if Nat.eqb f 1 then 1 else if Nat.eqb f 2 then 1 else -1.

Lemma planes (cell : Type) (M : mesh cell) c sign p_inside p_outside :
  is_sign (dim M) sign -> strictly_in_cell (dim M) (face_plane M c) sign p_inside -> (forall x, to_unit M c x <> None) ->
  exists r, withoutMapping M c p_inside p_outside = Ok r /\ (r = None <-> in_cell (dim M) (face_plane M c) sign p_outside) /\
    forall k, r = Some k -> (cr_face k < 2 * dim M)%nat /\ 0 < cr_lambda k < 1 /\
      side (dim M) (face_plane M c) sign (cr_face k) p_outside > 0 /\
      side (dim M) (face_plane M c) sign (cr_face k) (cr_point k) = 0 /\
      (forall i, cr_point k i = along p_inside p_outside (cr_lambda k) i) /\
      (forall mu, 0 <= mu <= cr_lambda k -> in_cell (dim M) (face_plane M c) sign (along p_inside p_outside mu)).
Proof. intros H1 H2 H3. exact (without_mapping_spec M c sign p_inside p_outside H1 H2 H3). Qed.

Lemma square_interior : is_sign (dim unit_square) square_sign /\
  strictly_in_cell (dim unit_square) (face_plane unit_square tt) square_sign (pt2 (1 / 2) (1 / 2)) /\
  (forall x, to_unit unit_square tt x <> None).
Proof.
  split; [|split; [|discriminate]].
  - intros f Hf. unfold square_sign. destruct (Nat.eqb f 0); [right; lra|]. destruct (Nat.eqb f 1); [left; lra|].
    destruct (Nat.eqb f 2); [left|right]; lra.
  - intros f Hf. cbn [dim unit_square] in Hf. unfold side, square_sign, unit_square. cbn [dim face_plane].
    destruct f as [|[|[|[|f]]]]; [| | | |lia]; cbn; unfold pt2; cbn; lra.
Qed.

Lemma square_in x y : 0 <= x <= 1 -> 0 <= y <= 1 -> in_cell (dim unit_square) (face_plane unit_square tt) square_sign (pt2 x y).
Proof.
  intros Hx Hy f Hf. cbn [dim unit_square] in Hf. unfold side, square_sign, unit_square. cbn [dim face_plane].
  destruct f as [|[|[|[|f]]]]; [| | | |lia]; cbn; unfold pt2; cbn; lra.
Qed.

Lemma square_refuted : exists a b k,
  in_cell (dim unit_square) (face_plane unit_square tt) square_sign a /\
  in_cell (dim unit_square) (face_plane unit_square tt) square_sign b /\
  withoutMapping unit_square tt a b = Ok (Some k) /\ cr_face k = 0%nat /\ cr_lambda k = 0.
Proof.
  exists (pt2 0 (1 / 2)), (pt2 (1 / 2) (1 / 2)).
  assert (P0 : forall s, try_face unit_square (pt2 0 (1 / 2)) (pt2 (1 / 2) (1 / 2)) (face_plane unit_square tt 0) 0 (1, s) = (0, 0%nat)).
  { intros s. unfold try_face, plane_lambda. cbn -[Rabs]. unfold pt2. cbn.
    destruct (Req_EM_T _ 0) as [E|E]; [exfalso; lra|].
    match goal with |- context [Rlt_dec (?x / ?y) 0] => replace (x / y) with 0 by (field; lra) end.
    destruct (Rlt_dec 0 0) as [X|_]; [lra|]. destruct (Rlt_dec 0 1); [reflexivity|lra]. }
  assert (Pn : forall f i, try_face unit_square (pt2 0 (1 / 2)) (pt2 (1 / 2) (1 / 2)) (face_plane unit_square tt f) i (0, 0%nat) = (0, 0%nat)).
  { intros f i. unfold try_face. destruct (plane_lambda _ _ _ _ _) as [l|]; [|reflexivity].
    destruct (Rlt_dec l 0); [reflexivity|]. cbn [fst]. destruct (Rlt_dec l 0); [contradiction|reflexivity]. }
  assert (T : try_faces unit_square tt 4 (pt2 0 (1 / 2)) (pt2 (1 / 2) (1 / 2)) = (0, 0%nat)).
  { cbn [try_faces]. rewrite P0, !Pn. reflexivity. }
  unfold withoutMapping. change (2 * dim unit_square)%nat with 4%nat. rewrite T. cbn [fst snd].
  destruct (Req_EM_T 0 1) as [X|_]; [lra|]. cbn [to_unit unit_square].
  eexists. split; [apply square_in; lra|]. split; [apply square_in; lra|]. split; [reflexivity|]. split; reflexivity.
Qed.

(** ** Termination *)
Lemma start_terminates (cell : Type) (M : mesh cell) e opp dt dirs c points :
  path_loop M e opp dt (51 * length (start_trackers e dt dirs c points)) (start_trackers e dt dirs c points) <> None.
Proof.
  apply loop_terminates. rewrite costs_fresh; [apply le_n|]. intros el H. exact (start_fresh e dt dirs c points el H).
Qed.

Lemma torus_example : let el := mkTracker 0 1 1 0 (pt2 (- (89 / 4)) (1 / 4)) (pt2 (1 / 4) (1 / 4)) (fun _ : nat => 0%Z) false in
  good 2 (fun i => Z.of_nat (3 + i)) (fun _ => 1 / 2) el (fun i => if Nat.eqb i 0 then (-45)%Z else 0%Z) /\
  distance 2 (fun i => if Nat.eqb i 0 then (-45)%Z else 0%Z) (currentCell el) = 45%nat.
Proof.
  cbv zeta. split; [|reflexivity]. unfold good. cbn [currentCell currentPoint departurePoint hit_do_nothing].
  split; [intros i Hi; lia|]. split; [|split; [|reflexivity]]; intros i Hi; unfold pt2; destruct (Nat.eqb i 0); lra.
Qed.

Lemma loop_S {cell} (M : mesh cell) e opp dt m el rest : path_loop M e opp dt (S m) (el :: rest) =
  match step M e opp dt el with
  | Throw => Some Throw
  | UB => Some UB
  | Ok (Continue el') => path_loop M e opp dt m (el' :: rest)
  | Ok (ContinueHit el' bi) => option_map (fun o => obind o (fun l => Ok (ContinueHit el' bi :: l))) (path_loop M e opp dt m (el' :: rest))
  | Ok ev => option_map (fun o => obind o (fun l => Ok (ev :: l))) (path_loop M e opp dt m rest)
  end.
Proof. reflexivity. Qed.

(** ** A refined neighbour *)
Definition refined_mesh : mesh unit :=
  mkMesh 2 (fun _ x => Some x) (fun _ x => x) (fun _ _ => (pt2 0 0, pt2 0 0)) (fun _ _ => RefinedNeighbor) (fun _ => true).

Lemma refined_ub : exists (M : mesh unit) e opp dt el,
  located M tt (currentPoint el) /\ lifeTimeCounter el = 0%nat /\ (forall i, departurePoint el i = currentPoint el i - dt * e (currentDirection el) i) /\
  path_loop M e opp dt 51 [el] = Some UB.
Proof.
  exists refined_mesh, (fun _ => pt2 (-1) 0), (fun a => a), 1, (mkTracker 0 1 1 0 (pt2 (3 / 2) (1 / 2)) (pt2 (1 / 2) (1 / 2)) tt false).
  cbn [currentPoint lifeTimeCounter departurePoint currentDirection].
  assert (A : nearly_inside 2 (pt2 (1 / 2) (1 / 2))) by (apply nearly2; lra).
  split; [exists (pt2 (1 / 2) (1 / 2)); split; [reflexivity|exact A]|]. split; [reflexivity|]. split.
  - intros i. unfold pt2. destruct (Nat.eqb i 0); lra.
  - destruct (only_face (pt2 (1 / 2) (1 / 2)) (pt2 (3 / 2) (1 / 2)) 0 1 A) as (k & E & _).
    + intros H. assert (X := H 0%nat ltac:(lia)). unfold pt2 in X. cbn [Nat.eqb] in X. lra.
    + apply beyond_lt2; unfold pt2; cbn [Nat.eqb]; [lra|left; reflexivity|right; split; [reflexivity|lra]].
    + rewrite loop_S. unfold step. cbn [lifeTimeCounter currentCell currentPoint departurePoint Nat.ltb Nat.leb].
      unfold findFace, faceCrossedFirst. cbn [to_unit refined_mesh dim]. rewrite E. reflexivity.
Qed.

(** ** A do-nothing boundary *)
Definition two_cells : mesh bool :=
  mkMesh 2 (fun (c : bool) (x : point) => Some (if c then pt2 (x 0%nat - 1) (x 1%nat) else x)) (fun (c : bool) (u : point) => if c then pt2 (u 0%nat + 1) (u 1%nat) else u)
    (fun _ _ => (pt2 0 0, pt2 0 0))
    (fun c f => if Nat.eqb f 0 then if c then Neighbor false else DoNothing 5 else OtherBoundary f) (fun _ => true).

Lemma do_nothing_throws : exists (M : mesh bool) e opp dt el,
  located M (currentCell el) (currentPoint el) /\ lifeTimeCounter el = 0%nat /\
  (forall i, departurePoint el i = currentPoint el i - dt * e (currentDirection el) i) /\
  path_loop M e opp dt 51 [el] = Some Throw.
Proof.
  exists two_cells, (fun _ => pt2 1 0), (fun a => a), 2, (mkTracker 0 1 1 0 (pt2 (- (1 / 2)) (1 / 2)) (pt2 (3 / 2) (1 / 2)) true false).
  cbn [currentCell currentPoint lifeTimeCounter departurePoint currentDirection].
  assert (A : nearly_inside 2 (pt2 (3 / 2 - 1) (1 / 2))) by (apply nearly2; lra).
  split; [eexists; split; [reflexivity|unfold pt2 at 2 3; cbn [Nat.eqb]; exact A]|]. split; [reflexivity|]. split.
  { intros i. unfold pt2. destruct (Nat.eqb i 0); lra. }
  (* first pass: right cell *)
  destruct (only_face (pt2 (3 / 2 - 1) (1 / 2)) (pt2 (- (1 / 2) - 1) (1 / 2)) 0 0 A) as (k & E & Hf & Hp & Hin).
  { intros H. assert (X := H 0%nat ltac:(lia)). unfold pt2 in X. cbn [Nat.eqb] in X. lra. }
  { apply beyond_lt2; unfold pt2; cbn [Nat.eqb]; [lra|left; reflexivity|left; split; [reflexivity|lra]]. }
  set (p1 := pt2 (cr_point k 0%nat + 1) (cr_point k 1%nat)).
  assert (F1 : findFace two_cells true (pt2 (3 / 2) (1 / 2)) (pt2 (- (1 / 2)) (1 / 2))
    = Ok (Some (mkCrossing (cr_face k) (cr_lambda k) p1 (cr_child k)))).
  { unfold findFace, faceCrossedFirst. cbn [to_unit two_cells dim to_real]. unfold pt2 at 2 3 5 6. cbn [Nat.eqb]. rewrite E. reflexivity. }
  (* second pass: left cell *)
  assert (A1 : nearly_inside 2 p1).
  { assert (X := Hin 1%nat ltac:(lia)). unfold p1. cbn [INR] in Hp. apply nearly2; lra. }
  destruct (only_face p1 (pt2 (- (1 / 2)) (1 / 2)) 0 0 A1) as (k2 & E2 & Hf2 & _).
  { intros H. assert (X := H 0%nat ltac:(lia)). unfold pt2 in X. cbn [Nat.eqb] in X. lra. }
  { apply beyond_lt2; unfold pt2; cbn [Nat.eqb]; [lra|left; reflexivity|left; split; [reflexivity|lra]]. }
  assert (F2 : findFace two_cells false p1 (pt2 (- (1 / 2)) (1 / 2))
    = Ok (Some (mkCrossing (cr_face k2) (cr_lambda k2) (cr_point k2) (cr_child k2)))).
  { unfold findFace, faceCrossedFirst. cbn [to_unit two_cells dim to_real]. rewrite E2. reflexivity. }
  (* third pass: the start point is not in the left cell *)
  assert (F3 : forall x y, 3 / 2 <= x 0%nat -> findFace two_cells false x y = Throw).
  { intros x y Hx. unfold findFace, faceCrossedFirst. cbn [to_unit two_cells dim to_real]. unfold crossed_unit.
    assert (N : all_inside 2 (snap_point x) = false).
    { destruct (all_inside 2 (snap_point x)) eqn:X; [|reflexivity]. apply all_inside_iff in X.
      assert (Y := X 0%nat ltac:(lia)). unfold snap_point in Y. apply snap_inside in Y. unfold tol in Y. lra. }
    rewrite N. reflexivity. }
  assert (S1 : step two_cells (fun _ => pt2 1 0) (fun a => a) 2
      (mkTracker 0 1 1 0 (pt2 (- (1 / 2)) (1 / 2)) (pt2 (3 / 2) (1 / 2)) true false)
    = Ok (Continue (mkTracker 0 1 1 1 (pt2 (- (1 / 2)) (1 / 2)) p1 false false))).
  { unfold step. cbn [lifeTimeCounter currentCell currentPoint departurePoint dest_index dest_direction currentDirection hit_do_nothing].
    change (Nat.ltb 50 1) with false. cbv iota. rewrite F1. cbn [obind cr_face cr_point]. rewrite Hf. reflexivity. }
  assert (S2 : exists x y, 3 / 2 <= x 0%nat /\ step two_cells (fun _ => pt2 1 0) (fun a => a) 2
      (mkTracker 0 1 1 1 (pt2 (- (1 / 2)) (1 / 2)) p1 false false)
    = Ok (Continue (mkTracker 0 1 1 2 y x false true))).
  { eexists _, _. split; [|unfold step; cbn [lifeTimeCounter currentCell currentPoint departurePoint dest_index dest_direction currentDirection hit_do_nothing];
      change (Nat.ltb 50 2) with false; cbv iota; rewrite F2; cbn [obind cr_face cr_point]; rewrite Hf2; reflexivity].
    cbn beta. unfold minus_dtealpha, pt2. cbn [Nat.eqb]. lra. }
  destruct S2 as (x & y & Hx & S2).
  rewrite loop_S, S1. change 50%nat with (S 49). rewrite loop_S, S2. change 49%nat with (S 48). rewrite loop_S.
  unfold step. cbn [lifeTimeCounter currentCell currentPoint departurePoint dest_index dest_direction currentDirection hit_do_nothing].
  change (Nat.ltb 50 3) with false. cbv iota. rewrite (F3 x y Hx). reflexivity.
Qed.

(** ** Uniform populations *)
Lemma torus_uniform D N h plane e opp dt n node dofs Q shape cells :
  (0 < D)%nat -> (forall i, (i < D)%nat -> (2 <= N i)%Z) -> (forall i, (i < D)%nat -> 0 < h i) ->
  (forall c, In c cells -> in_grid D N c) -> (forall j, (j < n)%nat -> inside D (node j)) -> short_paths D h e dt Q ->
  let M := torus D N h plane in consistent_dofs D N h M n node dofs cells -> partition_of_unity D n shape ->
  exists z, assemble M e opp dt n node dofs Q shape cells = Some (Ok z) /\
  forall a f v, (1 <= a < Q)%nat -> (forall i, f (a - 1)%nat i = v) -> forall c j, In c cells -> (j < n)%nat ->
    Rabs (apply_row z f (a - 1) (dofs c j) - v) <= INR n * (1 / 10 ^ 10 * Rabs v).
Proof.
  intros HD HN Hh Hc Hn Hs M Hd Hp.
  destruct (torus_stream D N h plane e opp dt n node dofs Q shape cells HD HN Hh Hc Hn Hs Hd) as (z & Hz & H).
  exists z. split; [exact Hz|]. intros a f v Ha Hf c j Hin Hj.
  assert (X := H a (fun _ => v) f (Rabs v) 0 Ha). rewrite Rplus_0_r in X. apply X; auto.
  - intros. split; [apply Hf|apply Rle_refl].
  - intros c' Hc' u Hu. cbn beta. rewrite sumf_scal_r, (Hp u Hu). ring.
  - intros. replace (v - v) with 0 by ring. rewrite Rabs_R0. apply Rle_refl.
Qed.

(** A mesh of 2 x 2 cells with bilinear elements. *)
Definition cell22 (i j : Z) : index := fun k => if Nat.eqb k 0 then i else j.
Definition grid22 : list index := [cell22 0 0; cell22 1 0; cell22 0 1; cell22 1 1].
Definition corner (j : nat) : point := pt2 (INR (j mod 2)) (INR (j / 2)).
(** Nine degrees of freedom, numbered by position. *)
Definition dofs22 (c : index) (j : nat) : nat := (Z.to_nat (c 0%nat) + j mod 2 + 3 * (Z.to_nat (c 1%nat) + j / 2))%nat.
Definition bilinear (j : nat) (u : point) : R :=
  (if Nat.eqb (j mod 2) 0 then 1 - u 0%nat else u 0%nat) * (if Nat.eqb (j / 2) 0 then 1 - u 1%nat else u 1%nat).

Lemma torus_setup : (forall c, In c grid22 -> in_grid 2 (fun _ => 2%Z) c) /\ (forall j, (j < 4)%nat -> inside 2 (corner j)) /\
  short_paths 2 (fun _ => 1) (fun a => pt2 (INR (a mod 2)) 0) 20 5 /\
  consistent_dofs 2 (fun _ => 2%Z) (fun _ => 1) (torus 2 (fun _ => 2%Z) (fun _ => 1) (fun _ _ => (pt2 0 0, pt2 0 0))) 4 corner dofs22 grid22 /\
  partition_of_unity 2 4 bilinear.
Proof.
  split; [|split; [|split; [|split]]].
  - intros c Hc i Hi. unfold grid22 in Hc. cbn [In] in Hc. unfold cell22 in Hc.
    destruct Hc as [<-|[<-|[<-|[<-|[]]]]]; destruct (Nat.eqb i 0); lia.
  - intros j Hj i Hi. unfold corner, pt2. destruct j as [|[|[|[|j]]]]; [| | | |lia]; cbn; destruct (Nat.eqb i 0); lra.
  - intros a Ha. destruct a as [|[|[|[|[|a]]]]]; [lia| | | | |lia]; cbn -[Rabs]; unfold pt2; cbn -[Rabs];
      rewrite ?Rmult_0_r, ?Rmult_1_r, ?Rabs_R0, ?(Rabs_pos_eq 20) by lra; lra.
  - intros c c' j j' Hc Hc' Hj Hj' E i Hi.
    assert (Key : forall c, In c grid22 -> exists x y, (x = 0 \/ x = 1)%nat /\ (y = 0 \/ y = 1)%nat /\ c = cell22 (Z.of_nat x) (Z.of_nat y)).
    { intros b Hb. cbn [grid22 In] in Hb. destruct Hb as [<-|[<-|[<-|[<-|[]]]]]; [exists 0%nat, 0%nat|exists 1%nat, 0%nat|exists 0%nat, 1%nat|exists 1%nat, 1%nat];
        (split; [lia|]; split; [lia|]; reflexivity). }
    destruct (Key c Hc) as (x & y & Hx & Hy & ->). destruct (Key c' Hc') as (x' & y' & Hx' & Hy' & ->).
    unfold dofs22, cell22 in E. cbn [Nat.eqb] in E. rewrite !Nat2Z.id in E.
    assert (B : (j mod 2 < 2)%nat) by (apply Nat.mod_upper_bound; lia). assert (B' : (j' mod 2 < 2)%nat) by (apply Nat.mod_upper_bound; lia).
    assert (B2 : (j / 2 < 2)%nat) by (apply Nat.div_lt_upper_bound; lia). assert (B2' : (j' / 2 < 2)%nat) by (apply Nat.div_lt_upper_bound; lia).
    assert (E0 : (x + j mod 2 = x' + j' mod 2)%nat) by lia. assert (E1 : (y + j / 2 = y' + j' / 2)%nat) by lia.
    exists 0%Z. unfold torus. cbn [to_real]. unfold corner, pt2, cell22. rewrite Rmult_0_l, Rplus_0_r, !Rmult_1_r.
    destruct (Nat.eqb i 0).
    + rewrite <- !INR_IZR_INZ, <- !plus_INR. f_equal. lia.
    + rewrite <- !INR_IZR_INZ, <- !plus_INR. f_equal. lia.
  - intros u Hu. unfold bilinear. cbn. ring.
Qed.

Lemma dropped_example : let el := mkTracker 0 1 1 0 (pt2 (- (119 / 4)) (1 / 4)) (pt2 (1 / 4) (1 / 4)) (fun _ : nat => 0%Z) false in
  let t := fun i => if Nat.eqb i 0 then (-60)%Z else 0%Z in
  good 2 (fun i => Z.of_nat (3 + i)) (fun _ => 1 / 2) el t /\ (lifeTimeCounter el + 50 = 50)%nat /\
  (50 <= distance 2 t (currentCell el))%nat /\
  (forall z x, nearly_in 2 (fun _ => 1 / 2) z x -> congruent 2 (fun i => Z.of_nat (3 + i)) (fun _ => 1 / 2) x (departurePoint el) ->
     forall t', nearly_in 2 (fun _ => 1 / 2) t' x -> forall i, (i < 2)%nat -> z i = t' i).
Proof.
  cbv zeta. cbn [currentCell departurePoint lifeTimeCounter]. split; [|split; [reflexivity|split; [cbn; lia|]]].
  - unfold good. cbn [currentCell currentPoint departurePoint hit_do_nothing].
    split; [intros i Hi; lia|]. split; [|split; [|reflexivity]]; intros i Hi; unfold pt2; destruct (Nat.eqb i 0); lra.
  - intros z x Hz Hc t' Ht i Hi. assert (A := Hz i Hi). assert (B := Ht i Hi). cbn beta in A, B. destruct (Hc i Hi) as [k Ek].
    assert (Half : exists m : Z, x i / (1 / 2) = IZR m + 1 / 2).
    { destruct i as [|[|i]]; [| |lia]; rewrite Ek; unfold pt2; cbn [Nat.eqb].
      - exists (-60 + 3 * k)%Z. rewrite plus_IZR, mult_IZR. change (Z.of_nat (3 + 0)) with 3%Z. field.
      - exists (4 * k)%Z. rewrite mult_IZR. change (Z.of_nat (3 + 1)) with 4%Z. field. }
    destruct Half as [m Em]. rewrite Em in A, B.
    assert (U : forall w : Z, - (1 / 10 ^ 10) < IZR m + 1 / 2 - IZR w < 1 + 1 / 10 ^ 10 -> w = m).
    { intros w Hw. assert (C1 : IZR w < IZR (m + 1)) by (rewrite plus_IZR; lra). assert (C2 : IZR (m - 1) < IZR w) by (rewrite minus_IZR; lra).
      apply lt_IZR in C1. apply lt_IZR in C2. lia. }
    rewrite (U _ A), (U _ B). reflexivity.
Qed.

Lemma pattern_example : exists z, assemble (torus 2 (fun _ => 2%Z) (fun _ => 1) (fun _ _ => (pt2 0 0, pt2 0 0)))
    (fun a => pt2 (INR (a mod 2)) 0) (fun a => a) 20 4 corner dofs22 5 bilinear grid22 = Some (Ok z) /\ z <> [].
Proof.
  destruct torus_setup as (H1 & H2 & H3 & H4 & H5).
  destruct (torus_uniform 2 (fun _ => 2%Z) (fun _ => 1) (fun _ _ => (pt2 0 0, pt2 0 0)) (fun a => pt2 (INR (a mod 2)) 0) (fun a => a) 20 4
    corner dofs22 5 bilinear grid22 ltac:(lia) ltac:(intros; lia) ltac:(intros; lra) H1 H2 H3 H4 H5) as (z & Hz & H).
  exists z. split; [exact Hz|]. intros ->.
  assert (X := H 1%nat (fun _ _ => 1) 1 ltac:(lia) ltac:(reflexivity) (cell22 0 0) 0%nat (or_introl eq_refl) ltac:(lia)).
  unfold apply_row in X. cbn [fold_right] in X. replace (0 - 1) with (-1) in X by ring. rewrite Rabs_left, Rabs_R1 in X by lra.
  cbn [INR] in X. lra.
Qed.

Lemma found_example : (0 < dim unit_square)%nat /\ (forall c x, to_unit unit_square c x <> None) /\
  exists el, path_loop unit_square (fun _ => pt2 1 0) (fun a => a) 1 1
    [mkTracker 7 1 1 0 (pt2 (1 / 2) (1 / 2)) (pt2 (3 / 4) (1 / 2)) tt false] = Some (Ok [Found el]).
Proof.
  split; [cbn; lia|]. split; [discriminate|].
  assert (A : nearly_inside 2 (pt2 (3 / 4) (1 / 2))) by (apply nearly2; lra).
  destruct (crossed_unit_spec 2 (pt2 (3 / 4) (1 / 2)) (pt2 (1 / 2) (1 / 2)) ltac:(lia) A) as (r & E & Hn & _).
  assert (r = None) as -> by (apply Hn; apply nearly2; lra).
  eexists. rewrite loop_S. unfold step.
  cbn [lifeTimeCounter currentCell currentPoint departurePoint dest_index dest_direction currentDirection hit_do_nothing].
  change (Nat.ltb 50 1) with false. cbv iota. unfold findFace, faceCrossedFirst. cbn [to_unit unit_square dim]. rewrite E. reflexivity.
Qed.

Lemma once_example : exists l, path_loop unit_square (fun _ => pt2 1 0) (fun a => a) 1 1
  [mkTracker 7 1 1 0 (pt2 (1 / 2) (1 / 2)) (pt2 (3 / 4) (1 / 2)) tt false] = Some (Ok l) /\ finals l = [(7, 1)]%nat.
Proof. destruct found_example as (_ & _ & el & E). exists [Found el]. split; [exact E|]. apply loop_dest in E. exact E. Qed.
