(** C39 (boundary collections), C40 (boundary check), C41 (periodic transport). *)
From Verif Require Import Prelude BigSum ModelBoundary SpecBoundary ProofBoundary.
Local Open Scope R_scope.

(** ** C39 *)

(** Whatever was registered, in whatever order, with or without errors: the lookup of [k] gives the
    first boundary of the history that mentions [k], and throws if there is none. *)
Theorem C39_lookup : forall l k,
  getBoundary (built l) k = match first_with l k with Some b => Ok b | None => Throw end.
Proof. exact get_built. Qed.
Print Assumptions C39_lookup.
Example C39_lookup_ex :
  getBoundary (built [Plain 1 5; PeriodicB 2 7 5; Plain 3 7]) 7 = Ok (PeriodicB 2 7 5) /\
  getBoundary (built [Plain 1 5; PeriodicB 2 7 5; Plain 3 7]) 5 = Ok (Plain 1 5) /\
  getBoundary (built [Plain 1 5; PeriodicB 2 7 5; Plain 3 7]) 4 = Throw.
Proof. repeat split. Qed.

(** Registration throws exactly for periodic boundaries one of whose indicators is in use (or equal
    to the other one). *)
Theorem C39_error_partial : forall l b, snd (addBoundary (built l) b) = true <->
  exists t i j, b = PeriodicB t i j /\ (i = j \/ In i (flat_map ids_of l) \/ In j (flat_map ids_of l)).
Proof. exact throws_built. Qed.
Print Assumptions C39_error_partial.
Example C39_error_ex : snd (addBoundary (built [Plain 1 5]) (PeriodicB 2 7 5)) = true /\
  snd (addBoundary (built [Plain 1 5]) (PeriodicB 2 7 6)) = false.
Proof. split; reflexivity. Qed.

(** If all indicators of a history are different, no registration throws, the number of boundaries is
    right and every boundary is found under each of its indicators, periodic ones as such. *)
Theorem C39_distinct : forall l, NoDup (flat_map ids_of l) ->
  Forall (fun e => e = false) (snd (add_all empty_collection l)) /\
  numberOfBoundaries (built l) = length (flat_map ids_of l) /\
  forall b k, In b l -> In k (ids_of b) ->
    getBoundary (built l) k = Ok b /\ isPeriodic (built l) k = Ok (isPeriodicObject b) /\
    getPeriodicBoundary (built l) k = if isPeriodicObject b then Ok b else Throw.
Proof. exact distinct_found. Qed.
Print Assumptions C39_distinct.
Example C39_distinct_ex : let l := [PeriodicB 1 0 1; Plain 2 2; Plain 3 3] in
  NoDup (flat_map ids_of l) /\ numberOfBoundaries (built l) = 4%nat /\
  getPeriodicBoundary (built l) 1 = Ok (PeriodicB 1 0 1) /\ getPeriodicBoundary (built l) 2 = Throw.
Proof. cbn. repeat split. repeat constructor; cbn; lia. Qed.

(** Not true: a second plain boundary under a used indicator raises no error (it is dropped). *)
Theorem C39_duplicate_refuted : exists l b k,
  In k (flat_map ids_of l) /\ In k (ids_of b) /\ ~ In b l /\
  snd (addBoundary (built l) b) = false /\ getBoundary (fst (addBoundary (built l) b)) k <> Ok b.
Proof.
  exists [Plain 1 5], (Plain 2 5), 5%nat. cbn. repeat split; try tauto; try discriminate.
  intros [H|[]]. discriminate.
Qed.
Print Assumptions C39_duplicate_refuted.

(** Not true: a failing registration leaves traces.  The free indicator of a rejected periodic
    boundary is in the collection afterwards, called periodic, but the periodic lookup throws. *)
Theorem C39_unchanged_refuted : exists l b k,
  snd (addBoundary (built l) b) = true /\ hasID (built l) k = false /\
  let c := fst (addBoundary (built l) b) in
  hasID c k = true /\ isPeriodic c k = Ok true /\ getPeriodicBoundary c k = Throw.
Proof. exists [Plain 1 5], (PeriodicB 2 7 5), 7%nat. repeat split. Qed.
Print Assumptions C39_unchanged_refuted.

(** ** C40 *)

(** For indicators that fit the type of the mesh, the check accepts exactly equal sets. *)
Theorem C40_check_partial : forall modulus tria l,
  NoDup tria -> (forall k, In k (flat_map ids_of l) -> (k < modulus)%nat) ->
  (checkBoundaryConditions modulus tria (built l) = true <->
   forall k, In k tria <-> In k (flat_map ids_of l)).
Proof.
  intros modulus tria l H1 H2. rewrite (check_iff modulus tria l H1 H2).
  split; intros H k; rewrite (H k); [|symmetry]; apply hasID_built.
Qed.
Print Assumptions C40_check_partial.
Example C40_check_ex :
  checkBoundaryConditions 256 [3; 0; 1]%nat (built [PeriodicB 1 0 1; Plain 2 3; Plain 4 3]) = true /\
  checkBoundaryConditions 256 [3; 0; 1; 2]%nat (built [PeriodicB 1 0 1; Plain 2 3]) = false /\
  checkBoundaryConditions 256 [3; 0]%nat (built [PeriodicB 1 0 1; Plain 2 3]) = false.
Proof. repeat split. Qed.

(** Not true without the bound: the indicator is truncated to the type of the mesh indicators. *)
Theorem C40_truncated_refuted : forall modulus, (0 < modulus)%nat -> exists tria l k,
  NoDup tria /\ checkBoundaryConditions modulus tria (built l) = true /\
  In k tria /\ getBoundary (built l) k = Throw.
Proof.
  intros modulus Hm. exists [0%nat], [Plain 1 modulus], 0%nat. repeat split.
  - constructor; [cbn; tauto|constructor].
  - unfold checkBoundaryConditions. cbn [built add_all addBoundary isPeriodicObject addPlain fst m_boundaries insert empty_collection find_id find option_map app map].
    rewrite Nat.mod_same by lia. reflexivity.
  - left. reflexivity.
  - rewrite get_built. unfold first_with. cbn. destruct modulus; [lia|reflexivity].
Qed.
Print Assumptions C40_truncated_refuted.

(** ** C41 *)

(** The cell on the other side, there and back. *)
Theorem C41_cells_partial : forall pairs p, separate pairs -> In p pairs ->
  getOppositeCell (make_periodicity_map pairs) (fp_cell0 p) = Ok (fp_cell1 p, fp_face1 p) /\
  getOppositeCell (make_periodicity_map pairs) (fp_cell1 p) = Ok (fp_cell0 p, fp_face0 p).
Proof. intros pairs p Hs Hi. split; [apply opposite0|apply opposite1]; assumption. Qed.
Print Assumptions C41_cells_partial.

(** Every point, there and back, from either side. *)
Theorem C41_return_partial : forall inv vertex dim pairs p x,
  separate pairs -> In p pairs -> inverts_unit dim inv ->
  (exists y z, coordinatesAcross inv vertex dim (make_periodicity_map pairs) x (fp_cell0 p) = Ok y /\
     coordinatesAcross inv vertex dim (make_periodicity_map pairs) y (fp_cell1 p) = Ok z /\ same_point dim z x) /\
  (exists y z, coordinatesAcross inv vertex dim (make_periodicity_map pairs) x (fp_cell1 p) = Ok y /\
     coordinatesAcross inv vertex dim (make_periodicity_map pairs) y (fp_cell0 p) = Ok z /\ same_point dim z x).
Proof. intros inv vertex dim pairs p x Hs Hi Hv. split; [apply round_trip0|apply round_trip1]; assumption. Qed.
Print Assumptions C41_return_partial.

(** Every point of a face goes to the opposite point of the other face. *)
Theorem C41_faces_partial : forall inv vertex dim pairs p t w,
  separate pairs -> In p pairs -> inverts_unit dim inv -> standard dim p -> matching vertex dim p t ->
  sumf (face_vertices dim) w = 1 ->
  let x0 := weighted (face_vertices dim) w (fun v => vertex (fp_cell0 p) (fp_face0 p) (opposite_vertex dim p v)) in
  let x1 := weighted (face_vertices dim) w (vertex (fp_cell1 p) (fp_face1 p)) in
  (exists y, coordinatesAcross inv vertex dim (make_periodicity_map pairs) x0 (fp_cell0 p) = Ok y /\ same_point dim y x1) /\
  (exists y, coordinatesAcross inv vertex dim (make_periodicity_map pairs) x1 (fp_cell1 p) = Ok y /\ same_point dim y x0).
Proof.
  intros inv vertex dim pairs p t w Hs Hi Hv Hd Hm Hw. split; [apply (face0_to_face1 inv vertex dim pairs p Hs Hi Hv t Hd Hm w Hw)|].
  apply (face1_to_face0 inv vertex dim pairs p Hs Hi Hv t Hd Hm w Hw).
Qed.
Print Assumptions C41_faces_partial.

(** Two rows of two unit squares, periodic in x: cells 0,1 below, 2,3 above; face 0 left, 1 right. *)
Definition squares_vertex (c f v : nat) : pt := fun i =>
  match i with
  | 0%nat => INR (c mod 2) + INR f
  | _ => INR (c / 2) + INR v
  end.
Definition squares_pairs : list facepair :=
  [mkPair 0 1 0 1 true false false None; mkPair 2 3 0 1 true false false None].
Example C41_ex : separate squares_pairs /\ standard 2 (nth 1 squares_pairs (mkPair 0 0 0 0 true false false None)) /\
  inverts_unit 2 (fun _ m => m) /\
  matching squares_vertex 2 (nth 1 squares_pairs (mkPair 0 0 0 0 true false false None)) (fun i => match i with 0%nat => -2 | _ => 0 end).
Proof.
  split; [|split; [|split]].
  - unfold separate. cbn. repeat constructor; cbn; lia.
  - left. reflexivity.
  - intros i j _ _. reflexivity.
  - intros v i Hv Hi. cbn in Hv. destruct i as [|[|i]]; [| |lia]; cbn -[INR]; unfold opposite_vertex; cbn -[INR]; simpl INR; lra.
Qed.

(** Not true for meshes that are one cell wide: both faces belong to the same cell, and the transport
    always takes it for the first one, so points of the second face are moved away from the domain. *)
Theorem C41_one_cell_refuted : exists vertex pairs p t w, In p pairs /\ standard 2 p /\ matching vertex 2 p t /\
  sumf (face_vertices 2) w = 1 /\ forall inv, inverts_unit 2 inv ->
  let x0 := weighted 2 w (fun v => vertex (fp_cell0 p) (fp_face0 p) (opposite_vertex 2 p v)) in
  let x1 := weighted 2 w (vertex (fp_cell1 p) (fp_face1 p)) in
  exists y, coordinatesAcross inv vertex 2 (make_periodicity_map pairs) x1 (fp_cell1 p) = Ok y /\
    x0 0%nat = 0 /\ x1 0%nat = 1 /\ y 0%nat = 2.
Proof.
  exists (fun _ f v i => match i with 0%nat => INR f | _ => INR v end), [mkPair 0 0 0 1 true false false None],
    (mkPair 0 0 0 1 true false false None), (fun i => match i with 0%nat => -1 | _ => 0 end), (fun _ => / 2).
  split; [left; reflexivity|]. split; [left; reflexivity|]. split; [|split].
  - intros v i Hv Hi. destruct i as [|[|i]]; [| |lia]; cbn -[INR]; unfold opposite_vertex; cbn -[INR]; simpl INR; lra.
  - cbn. lra.
  - intros inv Hinv. eexists. split; [reflexivity|]. cbn [sumf]. unfold pair_matrix. cbn [fp_matrix new_pair].
    rewrite !Hinv by lia. unfold offset, weighted, pair_matrix, face1_to_face0_vertex, delta.
    cbn [sumf Nat.eqb fp_matrix fp_cell0 fp_face0 fp_cell1 fp_face1 fp_flip new_pair]. simpl INR. repeat split; lra.
Qed.
Print Assumptions C41_one_cell_refuted.
