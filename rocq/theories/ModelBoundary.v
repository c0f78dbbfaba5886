(** problemdescription/BoundaryCollection.h, ProblemDescription::checkBoundaryConditions and the
    transport across periodic boundaries (boundaries/PeriodicBoundary.cpp,
    utilities/DealiiExtensions.cpp). *)
From Verif Require Import Prelude.
Local Open Scope R_scope.

(** ** Boundary collection *)

(** A boundary object; [tag] stands for the identity of the object. *)
Inductive boundary : Type :=
| Plain (tag id : nat)
| PeriodicB (tag id1 id2 : nat).

(** isPeriodic of Boundary.h and PeriodicBoundary.h:153-155. *)
Definition isPeriodicObject (b : boundary) : bool := match b with Plain _ _ => false | PeriodicB _ _ _ => true end.

(** std::map<size_t, shared_ptr<Boundary>> (order of keys left out); the two maps of BoundaryCollection.h:50-53. *)
Definition bmap := list (nat * boundary).
Record collection := mkCollection { m_boundaries : bmap; m_periodicBoundaries : bmap }.
Definition empty_collection : collection := mkCollection [] [].

Definition find_id (m : bmap) (k : nat) : option boundary :=
  option_map snd (find (fun e => Nat.eqb (fst e) k) m).
(** std::map::insert: keeps the old entry; tells whether the entry is new. *)
Definition insert (m : bmap) (k : nat) (b : boundary) : bmap * bool :=
  match find_id m k with Some _ => (m, false) | None => (m ++ [(k, b)], true) end.

(** BoundaryCollection.h:75-95 addBoundary(PeriodicBoundary) and 97-100 addBoundary(Boundary): the
    collection afterwards and whether an exception leaves the function (a failed assertion counts
    as one).  The constructor of PeriodicBoundary (PeriodicBoundary.cpp:34-37) has made sure that
    the two indicators differ. *)
Definition addPeriodic (c : collection) (b : boundary) : collection * bool :=
  match b with
  | PeriodicB _ i j =>
      let (m1, success1) := insert (m_boundaries c) i b in
      let (m2, success2) := insert m1 j b in
      if (negb success1 || negb success2)%bool then (mkCollection m2 (m_periodicBoundaries c), true)
      else (mkCollection m2 (fst (insert (fst (insert (m_periodicBoundaries c) i b)) j b)), false)
  | Plain _ _ => (c, true)
  end.
Definition addPlain (c : collection) (b : boundary) : collection * bool :=
  match b with
  | Plain _ i => (mkCollection (fst (insert (m_boundaries c) i b)) (m_periodicBoundaries c), false)
  | PeriodicB _ _ _ => (c, true)
  end.
(** The overload that the static type of the argument selects. *)
Definition addBoundary (c : collection) (b : boundary) : collection * bool :=
  if isPeriodicObject b then addPeriodic c b else addPlain c b.

(** A history of calls; the caller goes on after an exception.  Also the list of calls that threw. *)
Fixpoint add_all (c : collection) (l : list boundary) : collection * list bool :=
  match l with
  | [] => (c, [])
  | b :: l => let (c1, e) := addBoundary c b in let (c2, es) := add_all c1 l in (c2, e :: es)
  end.

(** BoundaryCollection.h:106-113 getBoundary. *)
Definition getBoundary (c : collection) (k : nat) : outcome boundary :=
  match find_id (m_boundaries c) k with Some b => Ok b | None => Throw end.
(** BoundaryCollection.h:132-134 isPeriodic. *)
Definition isPeriodic (c : collection) (k : nat) : outcome bool :=
  obind (getBoundary c k) (fun b => Ok (isPeriodicObject b)).
(** BoundaryCollection.h:119-127 getPeriodicBoundary. *)
Definition getPeriodicBoundary (c : collection) (k : nat) : outcome boundary :=
  obind (isPeriodic c k) (fun p =>
    if p then match find_id (m_periodicBoundaries c) k with Some b => Ok b | None => Throw end else Throw).
(** BoundaryCollection.h:136-142,152-154 *)
Definition numberOfBoundaries (c : collection) : nat := length (m_boundaries c).
Definition numberOfPeriodicBoundaries (c : collection) : nat := length (m_periodicBoundaries c).
Definition hasID (c : collection) (k : nat) : bool := match find_id (m_boundaries c) k with Some _ => true | None => false end.

(** ** The boundary check *)

(** std::find and erase of the first match. *)
Fixpoint erase (k : nat) (l : list nat) : option (list nat) :=
  match l with
  | [] => None
  | x :: l => if Nat.eqb x k then Some l else option_map (cons x) (erase k l)
  end.
Fixpoint check_loop (tria ids : list nat) (result : bool) : bool * list nat :=
  match tria with
  | [] => (result, ids)
  | t :: tria => match erase t ids with
                 | None => check_loop tria ids false
                 | Some ids => check_loop tria ids result
                 end
  end.
(** ProblemDescription.h:124-161 checkBoundaryConditions.  [modulus]: number of values of
    dealii::types::boundary_id; line 139 pushes a size_t into a vector of boundary_id.  [tria] is
    Triangulation::get_boundary_ids(). *)
Definition checkBoundaryConditions (modulus : nat) (tria : list nat) (c : collection) : bool :=
  let ids := map (fun e => (fst e mod modulus)%nat) (m_boundaries c) in
  let (result, rest) := check_loop tria ids true in
  match rest with [] => result | _ => false end.

(** ** Periodic boundaries *)

Definition pt := nat -> R.
(** A pair of faces (dealii::GridTools::PeriodicFacePair): cells, face numbers, orientation bits,
    optional matrix. *)
Record facepair := mkPair {
  fp_cell0 : nat; fp_cell1 : nat; fp_face0 : nat; fp_face1 : nat;
  fp_orientation : bool; fp_flip : bool; fp_rotation : bool;
  fp_matrix : option (nat -> nat -> R) }.

Definition find_cell (m : list (nat * facepair)) (c : nat) : option facepair :=
  option_map snd (find (fun e => Nat.eqb (fst e) c) m).
Definition insert_cell (m : list (nat * facepair)) (c : nat) (p : facepair) : list (nat * facepair) :=
  match find_cell m c with Some _ => m | None => m ++ [(c, p)] end.
(** DealiiExtensions.cpp:530-555,559-591 make_periodicity_map_dg on active cells: a new pair (its
    matrix is never set) is entered for both cells, an existing entry is kept.  (The recursion to
    children and the skipping of artificial cells are left out: [pairs] are the pairs of active cells
    that are not artificial.) *)
Definition new_pair (p : facepair) : facepair :=
  mkPair (fp_cell0 p) (fp_cell1 p) (fp_face0 p) (fp_face1 p) (fp_orientation p) (fp_flip p) (fp_rotation p) None.
Definition make_periodicity_map (pairs : list facepair) : list (nat * facepair) :=
  fold_left (fun m p => insert_cell (insert_cell m (fp_cell0 p) (new_pair p)) (fp_cell1 p) (new_pair p)) pairs [].

(** PeriodicBoundary.cpp:150-178 getOppositeCellAtPeriodicBoundary: (neighbour cell, face number). *)
Definition getOppositeCell (m : list (nat * facepair)) (c : nat) : outcome (nat * nat) :=
  match m with
  | [] => Throw
  | _ => match find_cell m c with
         | None => Throw
         | Some p => if Nat.eqb (fp_cell0 p) c then Ok (fp_cell1 p, fp_face1 p)
                     else if Nat.eqb (fp_cell1 p) c then Ok (fp_cell0 p, fp_face0 p) else Throw
         end
  end.

(** PeriodicBoundary.cpp:197-250: face1_to_face0_vertex.  The three tables are applied one after
    the other. *)
Definition face1_to_face0_vertex (dim : nat) (p : facepair) (i : nat) : nat :=
  if Nat.eqb dim 3 then
    let a := if fp_orientation p then match i with 1%nat => 2%nat | 2%nat => 1%nat | _ => i end else i in
    let b := if fp_flip p then match a with 0%nat => 3%nat | 1%nat => 2%nat | 2%nat => 1%nat | _ => 0%nat end else a in
    if fp_rotation p then match b with 0%nat => 1%nat | 1%nat => 3%nat | 2%nat => 0%nat | _ => 2%nat end else b
  else if fp_flip p then match i with 0%nat => 1%nat | _ => 0%nat end else i.

(** PeriodicBoundary.cpp:253-271: matrix and offset.  [vertex c f i] is vertex [i] of face [f] of
    cell [c]. *)
Definition pair_matrix (p : facepair) : nat -> nat -> R :=
  match fp_matrix p with Some m => m | None => delta end.
Definition offset (vertex : nat -> nat -> nat -> pt) (dim : nat) (p : facepair) : pt := fun i =>
  sumf dim (fun j => pair_matrix p i j * vertex (fp_cell0 p) (fp_face0 p) (face1_to_face0_vertex dim p 0) j)
  - vertex (fp_cell1 p) (fp_face1 p) 0%nat i.

(** PeriodicBoundary.cpp:184-310 coordinatesAcrossPeriodicBoundary.  [inv] is FullMatrix::invert.
    The check in the DEBUG branch compares the offset with itself and always passes. *)
Definition coordinatesAcross (inv : nat -> (nat -> nat -> R) -> nat -> nat -> R) (vertex : nat -> nat -> nat -> pt)
    (dim : nat) (m : list (nat * facepair)) (x : pt) (c : nat) : outcome pt :=
  match find_cell m c with
  | None => Throw
  | Some p =>
      let o := offset vertex dim p in
      if Nat.eqb (fp_cell0 p) c
      then Ok (fun i => sumf dim (fun j => inv dim (pair_matrix p) i j * (x j - o j)))
      else if Nat.eqb (fp_cell1 p) c
      then Ok (fun i => sumf dim (fun j => pair_matrix p i j * x j) + o i)
      else Throw
  end.
