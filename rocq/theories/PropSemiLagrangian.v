(** C42 (first crossed face), C43 (path following), C48 (streaming of fields), C49 (sparsity pattern). *)
From Verif Require Import Prelude BigSum ModelSemiLagrangian SpecSemiLagrangian ProofSemiLagrangian ProofSemiLagrangian2
  ProofSemiLagrangian3 ProofSemiLagrangian4 ProofSemiLagrangian5 SpecStream ProofStream ProofStream2.
Local Open Scope R_scope.

(** ** C42 *)

(** faceCrossedFirst in unit coordinates, any dimension: no assertion fails; "inside" is reported exactly
    for end points in the cell (enlarged by 1e-10); otherwise the reported face is one the end point
    lies beyond, the exit point is on that face and in the closed cell, within 2e-10 of the path, and
    the path up to it stays in the cell. *)
Theorem C42_unit : forall dim p_inside p_outside, (0 < dim)%nat -> nearly_inside dim p_inside ->
  exists r, crossed_unit dim p_inside p_outside = Ok r /\ (r = None <-> nearly_inside dim p_outside) /\
    forall k, r = Some k -> exists d s, (d < dim)%nat /\ is_face (cr_face k) d s /\ beyond p_outside d s /\
      cr_point k d = INR s /\ inside dim (cr_point k) /\ 0 <= cr_lambda k <= 1 /\
      (forall i, (i < dim)%nat -> Rabs (cr_point k i - along p_inside p_outside (cr_lambda k) i) < 2 / 10 ^ 10) /\
      (forall mu, 0 <= mu <= cr_lambda k -> nearly_inside dim (along p_inside p_outside mu)).
Proof. exact crossed_unit_spec. Qed.
Print Assumptions C42_unit.
Example C42_unit_ex : nearly_inside 2 (pt2 (1 / 2) (1 / 2)) /\
  (exists k, crossed_unit 2 (pt2 (1 / 2) (1 / 2)) (pt2 (3 / 2) (3 / 4)) = Ok (Some k) /\ cr_face k = 1%nat) /\
  crossed_unit 2 (pt2 (1 / 2) (1 / 2)) (pt2 1 1) = Ok None.
Proof. exact unit_example. Qed.

(** faceCrossedFirstWithoutMapping in real coordinates, for cells bounded by planes with any orientation
    of the normal vectors; the start point must not lie on a face. *)
Theorem C42_planes_partial : forall (cell : Type) (M : mesh cell) c sign p_inside p_outside,
  is_sign (dim M) sign -> strictly_in_cell (dim M) (face_plane M c) sign p_inside -> (forall x, to_unit M c x <> None) ->
  exists r, withoutMapping M c p_inside p_outside = Ok r /\ (r = None <-> in_cell (dim M) (face_plane M c) sign p_outside) /\
    forall k, r = Some k -> (cr_face k < 2 * dim M)%nat /\ 0 < cr_lambda k < 1 /\
      side (dim M) (face_plane M c) sign (cr_face k) p_outside > 0 /\
      side (dim M) (face_plane M c) sign (cr_face k) (cr_point k) = 0 /\
      (forall i, cr_point k i = along p_inside p_outside (cr_lambda k) i) /\
      (forall mu, 0 <= mu <= cr_lambda k -> in_cell (dim M) (face_plane M c) sign (along p_inside p_outside mu)).
Proof. exact @planes. Qed.
Print Assumptions C42_planes_partial.
Example C42_planes_ex : is_sign (dim unit_square) square_sign /\
  strictly_in_cell (dim unit_square) (face_plane unit_square tt) square_sign (pt2 (1 / 2) (1 / 2)) /\
  (forall x, to_unit unit_square tt x <> None).
Proof. exact square_interior. Qed.

(** A start point on a face with the path leading inwards: a crossing of that face is reported although
    start and end point are in the (closed) unit square. *)
Theorem C42_planes_refuted : exists a b k,
  in_cell (dim unit_square) (face_plane unit_square tt) square_sign a /\
  in_cell (dim unit_square) (face_plane unit_square tt) square_sign b /\
  withoutMapping unit_square tt a b = Ok (Some k) /\ cr_face k = 0%nat /\ cr_lambda k = 0.
Proof. exact square_refuted. Qed.
Print Assumptions C42_planes_refuted.

(** ** C43 *)

(** Every mesh, stencil, time step and set of support points: the loop ends after at most 51 passes per
    path. *)
Theorem C43_terminates : forall (cell : Type) (M : mesh cell) e opp dt dirs c points,
  path_loop M e opp dt (51 * length (start_trackers e dt dirs c points)) (start_trackers e dt dirs c points) <> None.
Proof. exact @start_terminates. Qed.
Print Assumptions C43_terminates.
Example C43_terminates_ex : length (start_trackers (fun _ => pt2 1 0) 1 [1; 2] tt [(7, pt2 0 0); (8, pt2 1 0); (9, pt2 0 1)])%nat = 6%nat.
Proof. reflexivity. Qed.

(** If it ends normally, every path ends exactly once (found, dropped or at a boundary), and every found
    departure point lies in the cell it was found in. *)
Theorem C43_once : forall (cell : Type) (M : mesh cell) e opp dt fuel q l, path_loop M e opp dt fuel q = Some (Ok l) ->
  finals l = map dest q.
Proof. exact @loop_dest. Qed.
Print Assumptions C43_once.
Example C43_once_ex : exists l, path_loop unit_square (fun _ => pt2 1 0) (fun a => a) 1 1
  [mkTracker 7 1 1 0 (pt2 (1 / 2) (1 / 2)) (pt2 (3 / 4) (1 / 2)) tt false] = Some (Ok l) /\ finals l = [(7, 1)]%nat.
Proof. exact once_example. Qed.
Theorem C43_found : forall (cell : Type) (M : mesh cell) e opp dt, (0 < dim M)%nat -> (forall c x, to_unit M c x <> None) ->
  forall fuel q l el, path_loop M e opp dt fuel q = Some (Ok l) -> In (Found el) l ->
  located M (currentCell el) (departurePoint el).
Proof. exact @loop_found. Qed.
Print Assumptions C43_found.
Example C43_found_ex : (0 < dim unit_square)%nat /\ (forall c x, to_unit unit_square c x <> None) /\
  exists el, path_loop unit_square (fun _ => pt2 1 0) (fun a => a) 1 1
    [mkTracker 7 1 1 0 (pt2 (1 / 2) (1 / 2)) (pt2 (3 / 4) (1 / 2)) tt false] = Some (Ok [Found el]).
Proof. exact found_example. Qed.

(** Cartesian meshes that are periodic in all directions, with at least two cells in each: all paths
    with fewer than 50 faces to cross are found, in a cell containing the departure point, which is
    the original one up to whole periods; destination and direction are kept. *)
Theorem C43_torus_partial : forall D N h plane e opp dt, (0 < D)%nat -> (forall i, (i < D)%nat -> (2 <= N i)%Z) ->
  (forall i, (i < D)%nat -> 0 < h i) ->
  forall q, (forall el, In el q -> lifeTimeCounter el = 0%nat /\
    exists t, good D N h el t /\ (distance D t (currentCell el) < 50)%nat) ->
  exists l, path_loop (torus D N h plane) e opp dt (51 * length q) q = Some (Ok l) /\ Forall2 (arrived D N h) q l.
Proof. exact torus_all. Qed.
Print Assumptions C43_torus_partial.
(** A path of 120 half-cell lengths over a mesh of 3 x 4 cells, crossing 45 faces. *)
Example C43_torus_ex : let el := mkTracker 0 1 1 0 (pt2 (- (89 / 4)) (1 / 4)) (pt2 (1 / 4) (1 / 4)) (fun _ => 0%Z) false in
  good 2 (fun i => Z.of_nat (3 + i)) (fun _ => 1 / 2) el (fun i => if Nat.eqb i 0 then (-45)%Z else 0%Z) /\
  distance 2 (fun i => if Nat.eqb i 0 then (-45)%Z else 0%Z) (currentCell el) = 45%nat.
Proof. exact torus_example. Qed.

(** The limit is sharp: with 50 or more faces to cross, the path is dropped (the population stays where
    it is) unless the departure point is within 1e-10 of a face. *)
Theorem C43_dropped : forall D N h plane e opp dt, (0 < D)%nat -> (forall i, (i < D)%nat -> (2 <= N i)%Z) ->
  (forall i, (i < D)%nat -> 0 < h i) ->
  forall n el t rest fuel, good D N h el t -> (lifeTimeCounter el + n = 50)%nat -> (n <= distance D t (currentCell el))%nat ->
  (forall z x, nearly_in D h z x -> congruent D N h x (departurePoint el) ->
     forall t', nearly_in D h t' x -> forall i, (i < D)%nat -> z i = t' i) ->
  exists el', same el el' /\ path_loop (torus D N h plane) e opp dt (S n + fuel) (el :: rest)
    = option_map (fun o => obind o (fun l => Ok (Diagonal el' :: l))) (path_loop (torus D N h plane) e opp dt fuel rest).
Proof. exact torus_dropped. Qed.
Print Assumptions C43_dropped.
Example C43_dropped_ex : let el := mkTracker 0 1 1 0 (pt2 (- (119 / 4)) (1 / 4)) (pt2 (1 / 4) (1 / 4)) (fun _ : nat => 0%Z) false in
  let t := fun i => if Nat.eqb i 0 then (-60)%Z else 0%Z in
  good 2 (fun i => Z.of_nat (3 + i)) (fun _ => 1 / 2) el t /\ (lifeTimeCounter el + 50 = 50)%nat /\
  (50 <= distance 2 t (currentCell el))%nat /\
  (forall z x, nearly_in 2 (fun _ => 1 / 2) z x -> congruent 2 (fun i => Z.of_nat (3 + i)) (fun _ => 1 / 2) x (departurePoint el) ->
     forall t', nearly_in 2 (fun _ => 1 / 2) t' x -> forall i, (i < 2)%nat -> z i = t' i).
Proof. exact dropped_example. Qed.

(** False for meshes with hanging nodes: crossing into a refined neighbour asks an active cell for its
    child. *)
Theorem C43_refined_refuted : exists (M : mesh unit) e opp dt el,
  located M tt (currentPoint el) /\ lifeTimeCounter el = 0%nat /\ (forall i, departurePoint el i = currentPoint el i - dt * e (currentDirection el) i) /\
  path_loop M e opp dt 51 [el] = Some UB.
Proof. exact refined_ub. Qed.
Print Assumptions C43_refined_refuted.
(** False at do-nothing boundaries: if the boundary is not in the cell of the support point, the path
    restarts from the support point but in the wrong cell, and an assertion fails. *)
Theorem C43_do_nothing_refuted : exists (M : mesh bool) e opp dt el,
  located M (currentCell el) (currentPoint el) /\ lifeTimeCounter el = 0%nat /\
  (forall i, departurePoint el i = currentPoint el i - dt * e (currentDirection el) i) /\
  path_loop M e opp dt 51 [el] = Some Throw.
Proof. exact do_nothing_throws. Qed.
Print Assumptions C43_do_nothing_refuted.

(** Any mesh without boundaries: a path from a point of a cell ends in a cell that contains the departure point (up to the
    periods), with destination and direction kept, unless it leaves 50 cells. *)
Theorem C43_closed : forall (cell : Type) (M : mesh cell) ok same e opp dt, (0 < dim M)%nat -> closed_mesh M ok same ->
  forall el, ok (currentCell el) -> located M (currentCell el) (currentPoint el) -> hit_do_nothing el = false -> lifeTimeCounter el = 0%nat ->
  ~ chain M 50 (currentCell el) (currentPoint el) (departurePoint el) ->
  exists el', path_loop M e opp dt 51 [el] = Some (Ok [Found el']) /\ dest_index el' = dest_index el /\ dest_direction el' = dest_direction el /\
    currentDirection el' = currentDirection el /\ ok (currentCell el') /\ located M (currentCell el') (departurePoint el') /\
    same (departurePoint el') (departurePoint el).
Proof.
  intros cell M ok same e opp dt Hd CM el H1 H2 H3 H4 H5.
  destruct (path_closed M ok same e opp dt Hd CM 50 el H1 H2 H3 ltac:(rewrite H4; reflexivity)) as [H|H]; [exact H|contradiction].
Qed.
Print Assumptions C43_closed.
(** A path into the next of 2 x 2 parallelograms, across the boundary. *)
Example C43_closed_ex : closed_mesh (sheared (1 / 2)) two_by_two (sheared_same (1 / 2)) /\ two_by_two (currentCell sheared_path) /\
  located (sheared (1 / 2)) (currentCell sheared_path) (currentPoint sheared_path) /\
  ~ located (sheared (1 / 2)) (currentCell sheared_path) (departurePoint sheared_path) /\
  ~ chain (sheared (1 / 2)) 50 (currentCell sheared_path) (currentPoint sheared_path) (departurePoint sheared_path).
Proof. split; [apply sheared_closed|exact sheared_path_ok]. Qed.

(** ** C48 *)

(** Any mesh without boundaries (behind each face a cell of the mesh, directly or across a period; mappings that can be
    inverted), with paths that leave fewer than 50 cells: assembly succeeds, and one streaming step (matrix times populations)
    of any population given by a periodic field [F] reproduced by the finite elements returns [F] at the departure points
    [x - dt e_a], up to [n * 1e-10 * max |F|] (skipped entries) and the change [eps] of [F] over 1e-10 of a cell. *)
Theorem C48_stream : forall (cell : Type) (M : mesh cell) ok same e opp dt, (0 < dim M)%nat -> closed_mesh M ok same ->
  forall n node dofs Q shape cells, (forall c, In c cells -> ok c) -> (forall j, (j < n)%nat -> inside (dim M) (node j)) ->
  within_limit M n node e dt Q cells -> dofs_agree M same n node dofs cells ->
  exists z, assemble M e opp dt n node dofs Q shape cells = Some (Ok z) /\
  forall a F f B eps, (1 <= a < Q)%nat ->
    (forall c k, ok c -> (k < n)%nat -> f (a - 1)%nat (dofs c k) = F (to_real M c (node k)) /\ Rabs (F (to_real M c (node k))) <= B) ->
    (forall c, ok c -> reproduces M n node shape F c) ->
    (forall x y, same x y -> F x = F y) -> changes_little M ok F eps ->
    forall c j, In c cells -> (j < n)%nat ->
    Rabs (apply_row z f (a - 1) (dofs c j) - F (fun i => to_real M c (node j) i - dt * e a i)) <= INR n * (1 / 10 ^ 10 * B) + eps.
Proof. exact @closed_stream. Qed.
Print Assumptions C48_stream.
(** Uniform populations stay uniform, up to [n * 1e-10] relative. *)
Theorem C48_uniform : forall (cell : Type) (M : mesh cell) ok same e opp dt, (0 < dim M)%nat -> closed_mesh M ok same ->
  forall n node dofs Q shape cells, (forall c, In c cells -> ok c) -> (forall j, (j < n)%nat -> inside (dim M) (node j)) ->
  within_limit M n node e dt Q cells -> dofs_agree M same n node dofs cells -> partition_of_unity (dim M) n shape ->
  exists z, assemble M e opp dt n node dofs Q shape cells = Some (Ok z) /\
  forall a f v, (1 <= a < Q)%nat -> (forall i, f (a - 1)%nat i = v) -> forall c j, In c cells -> (j < n)%nat ->
    Rabs (apply_row z f (a - 1) (dofs c j) - v) <= INR n * (1 / 10 ^ 10 * Rabs v).
Proof. exact @closed_uniform. Qed.
Print Assumptions C48_uniform.
(** The hypotheses hold for bilinear elements on a mesh of 2 x 2 parallelograms, with paths of half a cell. *)
Example C48_sheared : closed_mesh (sheared (1 / 2)) two_by_two (sheared_same (1 / 2)) /\ (forall c, In c grid22 -> two_by_two c) /\ (forall j, (j < 4)%nat -> inside 2 (corner j)) /\
  within_limit (sheared (1 / 2)) 4 corner axes (1 / 2) 5 grid22 /\ dofs_agree (sheared (1 / 2)) (sheared_same (1 / 2)) 4 corner dofs22 grid22 /\
  partition_of_unity 2 4 bilinear.
Proof. split; [apply sheared_closed|exact sheared_setup]. Qed.

(** On periodic Cartesian meshes, with paths of fewer than 50 faces: assembly succeeds, and one
    streaming step (matrix times populations) of any population that is given by a periodic field [F]
    reproduced by the finite elements returns [F] at the departure points [x - dt e_a], up to
    [n * 1e-10 * max |F|] (skipped entries) and the change [eps] of [F] over 1e-10 of a cell. *)
Theorem C48_torus : forall D N h plane e opp dt n node dofs Q shape cells,
  (0 < D)%nat -> (forall i, (i < D)%nat -> (2 <= N i)%Z) -> (forall i, (i < D)%nat -> 0 < h i) ->
  (forall c, In c cells -> in_grid D N c) -> (forall j, (j < n)%nat -> inside D (node j)) -> short_paths D h e dt Q ->
  let M := torus D N h plane in consistent_dofs D N h M n node dofs cells ->
  exists z, assemble M e opp dt n node dofs Q shape cells = Some (Ok z) /\
  forall a F f B eps, (1 <= a < Q)%nat ->
    (forall c k, in_grid D N c -> (k < n)%nat -> f (a - 1)%nat (dofs c k) = F (to_real M c (node k)) /\ Rabs (F (to_real M c (node k))) <= B) ->
    (forall c, in_grid D N c -> reproduces M n node shape F c) ->
    (forall x y, nearly_congruent D N h x y -> Rabs (F x - F y) <= eps) ->
    forall c j, In c cells -> (j < n)%nat ->
    Rabs (apply_row z f (a - 1) (dofs c j) - F (fun i => to_real M c (node j) i - dt * e a i)) <= INR n * (1 / 10 ^ 10 * B) + eps.
Proof. exact torus_stream. Qed.
Print Assumptions C48_torus.

(** Uniform populations stay uniform, up to [n * 1e-10] relative. *)
Theorem C48_torus_uniform : forall D N h plane e opp dt n node dofs Q shape cells,
  (0 < D)%nat -> (forall i, (i < D)%nat -> (2 <= N i)%Z) -> (forall i, (i < D)%nat -> 0 < h i) ->
  (forall c, In c cells -> in_grid D N c) -> (forall j, (j < n)%nat -> inside D (node j)) -> short_paths D h e dt Q ->
  let M := torus D N h plane in consistent_dofs D N h M n node dofs cells -> partition_of_unity D n shape ->
  exists z, assemble M e opp dt n node dofs Q shape cells = Some (Ok z) /\
  forall a f v, (1 <= a < Q)%nat -> (forall i, f (a - 1)%nat i = v) -> forall c j, In c cells -> (j < n)%nat ->
    Rabs (apply_row z f (a - 1) (dofs c j) - v) <= INR n * (1 / 10 ^ 10 * Rabs v).
Proof. exact torus_uniform. Qed.
Print Assumptions C48_torus_uniform.
(** The hypotheses hold for bilinear elements on a mesh of 2 x 2 cells with D2Q9-like directions and a
    time step of 20 cells. *)
Example C48_ex : (forall c, In c grid22 -> in_grid 2 (fun _ => 2%Z) c) /\ (forall j, (j < 4)%nat -> inside 2 (corner j)) /\
  short_paths 2 (fun _ => 1) (fun a => pt2 (INR (a mod 2)) 0) 20 5 /\
  consistent_dofs 2 (fun _ => 2%Z) (fun _ => 1) (torus 2 (fun _ => 2%Z) (fun _ => 1) (fun _ _ => (pt2 0 0, pt2 0 0))) 4 corner dofs22 grid22 /\
  partition_of_unity 2 4 bilinear.
Proof. exact torus_setup. Qed.

(** ** C49 *)

(** Every mesh: if the assembly succeeds, the sparsity pattern of each block row is computed without
    error and contains every position the assembly writes to. *)
Theorem C49_pattern : forall (cell : Type) (M : mesh cell) e opp dt n node dofs Q shape cells z,
  assemble M e opp dt n node dofs Q shape cells = Some (Ok z) -> forall a b i j v, In (a, b, i, j, v) z ->
  exists p, pattern M e opp dt n node dofs Q shape cells a = Some (Ok p) /\ In (a, b, i, j) p.
Proof. exact @pattern_covers. Qed.
Print Assumptions C49_pattern.
(** Assembly on the mesh of the previous example succeeds with a non-empty matrix. *)
Example C49_ex : exists z, assemble (torus 2 (fun _ => 2%Z) (fun _ => 1) (fun _ _ => (pt2 0 0, pt2 0 0)))
    (fun a => pt2 (INR (a mod 2)) 0) (fun a => a) 20 4 corner dofs22 5 bilinear grid22 = Some (Ok z) /\ z <> [].
Proof. exact pattern_example. Qed.
