(** Property theorems C124-C126: helpers for meshes. *)
From Verif Require Import Prelude ModelSemiLagrangian ModelSEDG ProofSEDGMesh ModelSparsity ModelMeshTools SpecMeshTools ProofMeshTools.
Local Open Scope R_scope.

(** The pairs entered are exactly the pairs of active cells at opposite subfaces (at all levels); if both cells are refined
    alike, every active cell at the face has its partner.  Missing: cells refined differently, see below. *)
Theorem C124_pairs_partial : forall dim orientation flip rotation turn child1 child2 t1 t2,
  turning (children_per_face dim) (lookup dim orientation flip rotation) turn ->
  exists pairs, make_periodicity_map_dg dim orientation flip rotation (fun i => child1 (turn i)) (fun i => child2 (turn i)) t1 t2 = Ok pairs /\
  (forall x y, In (x, y) pairs <-> exists p, path (children_per_face dim) p /\ active_at child1 p t1 = Some x /\
     active_at child2 (map (lookup dim orientation flip rotation) p) t2 = Some y) /\
  (refined_alike (children_per_face dim) (lookup dim orientation flip rotation) child1 child2 t1 t2 ->
     forall p x, path (children_per_face dim) p -> active_at child1 p t1 = Some x -> exists y, In (x, y) pairs).
Proof. exact periodic_pairs. Qed.
Print Assumptions C124_pairs_partial.

(** The tables of the subfaces are symmetries of the square: turned by a right angle for [rotation], by two for [flip], then
    reflected unless [orientation]; in two dimensions reversed for [flip]. *)
Theorem C124_tables : forall orientation flip rotation i,
  ((i < 4)%nat -> (lookup 3 orientation flip rotation i < 4)%nat /\ place (lookup 3 orientation flip rotation i) = turned orientation flip rotation (place i)) /\
  ((i < 2)%nat -> lookup 2 orientation flip rotation i = if flip then (1 - i)%nat else i).
Proof. exact tables_turn. Qed.
Print Assumptions C124_tables.

(** The tables are permutations, so they are turnings themselves: faces that are turned by their own orientation. *)
Example C124_tables_turn : forall dim orientation flip rotation, turning (children_per_face dim) (lookup dim orientation flip rotation) (lookup dim orientation flip rotation).
Proof. exact table_turns. Qed.

(** Two cells whose upper child is refined again, with a flip. *)
Example C124_nonvacuous : make_periodicity_map_dg 2 true true false (fun i => i) (fun i => i)
    (Refined (fun i => if Nat.eqb i 0 then Active 1 else halves 2 3)) (Refined (fun i => if Nat.eqb i 0 then halves 4 5 else Active 6)) = Ok [(1, 6); (2, 5); (3, 4)]%nat.
Proof. vm_compute. reflexivity. Qed.

(** A refined cell opposite to one that is not refined: the call succeeds, and the small cells have no partner. *)
Theorem C124_unequal_refuted : exists t1 t2 pairs, make_periodicity_map_dg 2 true false false (fun i => i) (fun i => i) t1 t2 = Ok pairs /\
  ~ refined_alike 2 (lookup 2 true false false) (fun i => i) (fun i => i) t1 t2 /\
  exists p x, path 2 p /\ active_at (fun i => i) p t1 = Some x /\ forall y, ~ In (x, y) pairs.
Proof. exact unequal_refinement. Qed.
Print Assumptions C124_unequal_refuted.

(** With at least one boundary that is not periodic the number in the log is the number of degrees of freedom on such boundaries. *)
Theorem C125_count_partial : forall cell (S : space cell) (m : mesh cell) cells, me_walls m <> [] ->
  forall n_dofs, exists l, NoDup l /\ (forall d, In d l <-> (d < n_dofs)%nat /\ on_wall S m cells d) /\ boundary_points S m n_dofs cells = length l.
Proof. exact @counted. Qed.
Print Assumptions C125_count_partial.

(** The strip of two cells with walls at both ends, periodic in the other direction. *)
Example C125_nonvacuous : boundary_points (strip false) (mkMesh (me_face torus) (tl (tl (me_periodic torus))) [(0%nat, true); (1%nat, true)]) 8 two = 4%nat.
Proof. vm_compute. reflexivity. Qed.

(** In a periodic domain all degrees of freedom at the boundaries are counted as points of boundaries that are not periodic. *)
Theorem C125_periodic_refuted : exists (S : space bool) (m : mesh bool), (forall d, ~ on_wall S m two d) /\ boundary_points S m 8 two = 8%nat.
Proof. exists (strip false), torus. exact all_counted. Qed.
Print Assumptions C125_periodic_refuted.

(** Exactly the faces with all vertices closer than [tol] to the plane get the id. *)
Theorem C126_plane_partial : forall dim cells vertices component value id tol ids, (component < dim)%nat ->
  exists ids', set_boundary_ids_at_hyperplane dim cells vertices component value id tol ids = Ok ids' /\
  forall f, ((exists c, In c cells /\ In f c) /\ lies_on vertices component value tol f -> ids' f = Some id) /\
    (~ lies_on vertices component value tol f -> ids' f = ids f).
Proof. exact plane_ids. Qed.
Print Assumptions C126_plane_partial.

(** ... also the faces inside of the domain, which thereby turn into boundary faces. *)
Theorem C126_interior_refuted : exists cells vertices ids ids', set_boundary_ids_at_hyperplane 2 cells vertices 0 1 7 (1 / 10000000000) ids = Ok ids' /\
  (In 1%nat (nth 0 cells []) /\ In 1%nat (nth 1 cells [])) /\ ids 1%nat = None /\ ids' 1%nat = Some 7%nat.
Proof.
  destruct interior_face as (ids' & E & A & B). exists squares, square_faces, square_ids, ids'. split; [exact E|].
  split; [split; [right; left; reflexivity|left; reflexivity]|]. split; [exact A|exact B].
Qed.
Print Assumptions C126_interior_refuted.
