(** Model of advection/SemiLagrangian.cpp: first crossed face, path following, assembly.
    Points are functions from components to reals; the mesh is given by the functions below. *)
From Verif Require Import Prelude.
Local Open Scope R_scope.

Definition point := nat -> R.

(** ** SemiLagrangian.cpp:525-700 faceCrossedFirst, part on the unit cell *)

(** The literal 1e-10. *)
Definition tol : R := 1 / 10 ^ 10.
(** SemiLagrangian.cpp:557-570, 673-681 (and SemiLagrangianTools.cpp:41-48): removal of round-off. *)
Definition snap (x : R) : R :=
  let y := if Rlt_dec (Rabs x) tol then 0 else x in
  if Rlt_dec (Rabs (y - 1)) tol then 1 else y.
Definition snap_point (x : point) : point := fun i => snap (x i).

(** SemiLagrangian.cpp:572-586: assert(pi_unit[i] >= 0), assert(pi_unit[i] <= 1). *)
Fixpoint all_inside (dim : nat) (x : point) : bool :=
  match dim with
  | O => true
  | S k => (all_inside k x && (if Rle_dec 0 (x k) then true else false) && (if Rle_dec (x k) 1 then true else false))%bool
  end.

(** lambda = (side - pi) / (po - pi) with its two assertions. *)
Definition checked_lambda (side pi po : R) : outcome R :=
  let l := (side - pi) / (po - pi) in
  if Rle_dec 0 l then if Rle_dec l 1 then Ok l else Throw else Throw.

(** SemiLagrangian.cpp:612-626: direction 0.  State: face (None = -1) and lambda. *)
Definition direction0 (pi po : point) : outcome (option nat * R) :=
  if Rlt_dec (po 0%nat) 0 then obind (checked_lambda 0 (pi 0%nat) (po 0%nat)) (fun l => Ok (Some 0%nat, l))
  else if Rlt_dec 1 (po 0%nat) then obind (checked_lambda 1 (pi 0%nat) (po 0%nat)) (fun l => Ok (Some 1%nat, l))
  else Ok (None, 100).
(** SemiLagrangian.cpp:627-645 (direction 1), 646-666 (direction 2): the same code twice. *)
Definition direction (d : nat) (pi po : point) (s : option nat * R) : outcome (option nat * R) :=
  if Rlt_dec (po d) 0 then obind (checked_lambda 0 (pi d) (po d)) (fun l =>
    if Rlt_dec l (snd s) then Ok (Some (2 * d)%nat, l) else Ok s)
  else if Rlt_dec 1 (po d) then obind (checked_lambda 1 (pi d) (po d)) (fun l =>
    if Rlt_dec l (snd s) then Ok (Some (2 * d + 1)%nat, l) else Ok s)
  else Ok s.
(** Directions 0, ..., n. *)
Fixpoint directions (n : nat) (pi po : point) : outcome (option nat * R) :=
  match n with
  | O => direction0 pi po
  | S k => obind (directions k pi po) (direction (S k) pi po)
  end.

(** SemiLagrangian.cpp:683-688: assert that the product of all h[i] and (1 - h[i]) is zero. *)
Fixpoint prodf (n : nat) (f : nat -> R) : R := match n with O => 1 | S k => prodf k f * f k end.
(** dealii::GeometryInfo<dim>::child_cell_from_point (not part of the repository). *)
Fixpoint child_from_point (dim : nat) (h : point) : nat :=
  match dim with
  | O => 0%nat
  | S k => (child_from_point k h + (if Rle_dec (h k) (1 / 2) then 0 else 2 ^ k))%nat
  end.

Record crossing := mkCrossing { cr_face : nat; cr_lambda : R; cr_point : point; cr_child : nat }.

(** The whole computation between the two mappings; None is the return value -1. *)
Definition crossed_unit (dim : nat) (pi0 po0 : point) : outcome (option crossing) :=
  let pi := snap_point pi0 in let po := snap_point po0 in
  if all_inside dim pi then
    obind (directions (dim - 1) pi po) (fun s =>
      match fst s with
      | None => Ok None
      | Some f =>
          let h := snap_point (fun i => pi i + (po i - pi i) * snd s) in
          if Req_EM_T (prodf dim h * prodf dim (fun i => 1 - h i)) 0
          then Ok (Some (mkCrossing f (snd s) h (child_from_point dim h)))
          else Throw
      end)
  else Throw.

(** ** The mesh *)
Section Mesh.
  Variable cell : Type.

  (** What lies behind a face (SemiLagrangian.cpp:335-450): the active neighbour, a neighbour with
      children, a periodic boundary (transport of points and opposite cell, see ModelBoundary), a
      bounce-back boundary, a do-nothing boundary, any other boundary. *)
  Inductive behind : Type :=
  | Neighbor (c : cell)
  | RefinedNeighbor
  | PeriodicFace (across : point -> point) (opposite : cell)
  | BounceBack (bi : nat)
  | DoNothing (bi : nat)
  | OtherBoundary (bi : nat).

  (** [to_unit]: None is dealii::Mapping::ExcTransformationFailed.  [face_plane c f] is vertex 0 and
      the normal vector (SemiLagrangianTools.cpp:146-166) of face [f]. *)
  Record mesh := mkMesh {
    dim : nat;
    to_unit : cell -> point -> option point;
    to_real : cell -> point -> point;
    face_plane : cell -> nat -> point * point;
    face_behind : cell -> nat -> behind;
    owned_or_ghost : cell -> bool }.

  Variable M : mesh.

  (** SemiLagrangian.cpp:525-700 faceCrossedFirst with mapping.  [Failed] is the exception
      FaceCrossedFirstFailed; the crossing point is mapped to the real cell. *)
  Inductive first_try := Failed | Answer (r : option crossing).
  Definition faceCrossedFirst (c : cell) (p_inside p_outside : point) : outcome first_try :=
    match to_unit M c p_inside with
    | None => Throw
    | Some pi =>
        match to_unit M c p_outside with
        | None => Ok Failed
        | Some po => obind (crossed_unit (dim M) pi po) (fun r => Ok (Answer
            (option_map (fun k => mkCrossing (cr_face k) (cr_lambda k) (to_real M c (cr_point k)) (cr_child k)) r)))
        end
    end.

  (** SemiLagrangian.cpp:702-757 faceCrossedFirstWithoutMapping.  State: lambda_min, index_min.  A
      zero denominator gives inf or nan, which is never selected. *)
  Definition plane_lambda (p n p_inside p_outside : point) : option R :=
    let den := dot (dim M) (fun i => p_inside i - p_outside i) n in
    if Req_EM_T den 0 then None else Some (dot (dim M) (fun i => p_inside i - p i) n / den).
  Definition try_face (p_inside p_outside : point) (pn : point * point) (i : nat) (s : R * nat) : R * nat :=
    match plane_lambda (fst pn) (snd pn) p_inside p_outside with
    | None => s
    | Some lam => if Rlt_dec lam 0 then s else if Rlt_dec lam (fst s) then (lam, i) else s
    end.
  Fixpoint try_faces (c : cell) (n : nat) (p_inside p_outside : point) : R * nat :=
    match n with
    | O => (1, 0%nat)
    | S k => try_face p_inside p_outside (face_plane M c k) k (try_faces c k p_inside p_outside)
    end.
  Definition withoutMapping (c : cell) (p_inside p_outside : point) : outcome (option crossing) :=
    let s := try_faces c (2 * dim M) p_inside p_outside in
    if Req_EM_T (fst s) 1 then Ok None
    else let pb := fun i => p_inside i + (p_outside i - p_inside i) * fst s in
         match to_unit M c pb with
         | None => Throw
         | Some u => Ok (Some (mkCrossing (snd s) (fst s) pb (child_from_point (dim M) u)))
         end.

  (** SemiLagrangian.cpp:275-305: first with, then without mapping. *)
  Definition findFace (c : cell) (p_inside p_outside : point) : outcome (option crossing) :=
    obind (faceCrossedFirst c p_inside p_outside) (fun t =>
      match t with Answer r => Ok r | Failed => withoutMapping c p_inside p_outside end).

  (** ** SemiLagrangian.cpp:246-455: the path loop *)

  (** SemiLagrangianTools.h:45-85 LagrangianPathTracker. *)
  Record tracker := mkTracker {
    dest_index : nat; dest_direction : nat; currentDirection : nat; lifeTimeCounter : nat;
    departurePoint : point; currentPoint : point; currentCell : cell; hit_do_nothing : bool }.

  (** Stencil: directions and opposite directions (Stencil.h), time step. *)
  Variable e : nat -> point.
  Variable opp : nat -> nat.
  Variable dt : R.
  (** SemiLagrangian.cpp:166-171. *)
  Definition minus_dtealpha (a : nat) : point := fun i => e a i * - dt.

  Definition norm (x : point) : R := sqrt (dot (dim M) x x).

  (** What happens to the front of the queue in one pass of the loop. *)
  Inductive event :=
  | Continue (el : tracker)               (* stays at the front *)
  | ContinueHit (el : tracker) (bi : nat) (* stays, addHit *)
  | Diagonal (el : tracker)               (* life time limit: entry 1 on the diagonal *)
  | Found (el : tracker)                  (* added to found_in_cell *)
  | Hit (el : tracker) (bi : nat).        (* removed, addHit *)

  (** SemiLagrangian.cpp:248-455, one pass.  natrium_errorexit is Throw; child() of an active cell is
      undefined (:436-440). *)
  Definition step (el0 : tracker) : outcome event :=
    let el := mkTracker (dest_index el0) (dest_direction el0) (currentDirection el0) (S (lifeTimeCounter el0))
                (departurePoint el0) (currentPoint el0) (currentCell el0) (hit_do_nothing el0) in
    if Nat.ltb 50 (lifeTimeCounter el) then Ok (Diagonal el)
    else obind (findFace (currentCell el) (currentPoint el) (departurePoint el)) (fun r =>
      match r with
      | None =>
          Ok (Found (mkTracker (dest_index el) (dest_direction el)
                (if hit_do_nothing el then opp (currentDirection el) else currentDirection el) (lifeTimeCounter el)
                (departurePoint el) (currentPoint el) (currentCell el) (hit_do_nothing el)))
      | Some k =>
          match face_behind M (currentCell el) (cr_face k) with
          | PeriodicFace across opposite =>
              Ok (Continue (mkTracker (dest_index el) (dest_direction el) (currentDirection el) (lifeTimeCounter el)
                    (across (departurePoint el)) (across (cr_point k)) opposite (hit_do_nothing el)))
          | BounceBack bi =>
              let d := opp (currentDirection el) in
              let dist := norm (fun i => departurePoint el i - cr_point k i) in
              Ok (ContinueHit (mkTracker (dest_index el) (dest_direction el) d (lifeTimeCounter el)
                    (fun i => cr_point k i - e d i * dist / norm (e d)) (cr_point k) (currentCell el) (hit_do_nothing el)) bi)
          | DoNothing bi =>
              let cp := fun i => departurePoint el i - minus_dtealpha (currentDirection el) i in
              Ok (Continue (mkTracker (dest_index el) (dest_direction el) (opp (currentDirection el)) (lifeTimeCounter el)
                    (fun i => cp i - minus_dtealpha (currentDirection el) i) cp (currentCell el) true))
          | OtherBoundary bi =>
              Ok (Hit (mkTracker (dest_index el) (dest_direction el) (currentDirection el) (lifeTimeCounter el)
                    (departurePoint el) (cr_point k) (currentCell el) (hit_do_nothing el)) bi)
          | Neighbor c =>
              if owned_or_ghost M c then
                Ok (Continue (mkTracker (dest_index el) (dest_direction el) (currentDirection el) (lifeTimeCounter el)
                      (departurePoint el) (cr_point k) c (hit_do_nothing el)))
              else Throw
          | RefinedNeighbor => UB
          end
      end).

  (** while (not not_found.empty()).  The result is the list of events other than Continue, in
      order; None: not finished after [fuel] passes. *)
  Fixpoint path_loop (fuel : nat) (not_found : list tracker) : option (outcome (list event)) :=
    match not_found with
    | [] => Some (Ok [])
    | el :: rest =>
        match fuel with
        | O => None
        | S fuel' =>
            match step el with
            | Throw => Some Throw
            | UB => Some UB
            | Ok (Continue el') => path_loop fuel' (el' :: rest)
            | Ok (ContinueHit el' bi) =>
                option_map (fun o => obind o (fun l => Ok (ContinueHit el' bi :: l))) (path_loop fuel' (el' :: rest))
            | Ok ev => option_map (fun o => obind o (fun l => Ok (ev :: l))) (path_loop fuel' rest)
            end
        end
    end.

  (** SemiLagrangian.cpp:225-242: the trackers of one cell.  [points]: pairs of dof index and support
      point handled in this cell; [dirs]: the directions handled. *)
  Definition start_trackers (dirs : list nat) (c : cell) (points : list (nat * point)) : list tracker :=
    flat_map (fun ix => map (fun a => mkTracker (fst ix) a a 0 (fun i => snd ix i + minus_dtealpha a i) (snd ix) c false) dirs)
      points.
End Mesh.

Arguments Neighbor {cell}. Arguments RefinedNeighbor {cell}. Arguments PeriodicFace {cell}.
Arguments BounceBack {cell}. Arguments DoNothing {cell}. Arguments OtherBoundary {cell}.
Arguments mkMesh {cell}. Arguments dim {cell}. Arguments to_unit {cell}. Arguments to_real {cell}.
Arguments face_plane {cell}. Arguments face_behind {cell}. Arguments owned_or_ghost {cell}.
Arguments faceCrossedFirst {cell}. Arguments withoutMapping {cell}. Arguments findFace {cell}.
Arguments try_faces {cell}. Arguments try_face {cell}. Arguments plane_lambda {cell}.
Arguments mkTracker {cell}. Arguments dest_index {cell}. Arguments dest_direction {cell}.
Arguments currentDirection {cell}. Arguments lifeTimeCounter {cell}. Arguments departurePoint {cell}.
Arguments currentPoint {cell}. Arguments currentCell {cell}. Arguments hit_do_nothing {cell}.
Arguments norm {cell}. Arguments Continue {cell}. Arguments ContinueHit {cell}. Arguments Diagonal {cell}.
Arguments Found {cell}. Arguments Hit {cell}. Arguments step {cell}. Arguments path_loop {cell}.
Arguments start_trackers {cell}.

(** ** SemiLagrangian.cpp:457-513: assembly *)

(** SemiLagrangianTools.cpp:15-63 shapeFunctionValue for one point: transform, remove round-off,
    assert that the point is in the unit cell, evaluate. *)
Definition shapeValues {cell} (M : mesh cell) (shape : nat -> point -> R) (c : cell) (x : point) : outcome (nat -> R) :=
  match to_unit M c x with
  | None => Throw
  | Some u => let h := snap_point u in if all_inside (dim M) h then Ok (fun j => shape j h) else Throw
  end.

(** One entry: block row, block column, row, column, value. *)
Definition entry := (nat * nat * nat * nat * R)%type.

(** SemiLagrangian.cpp:489-511: entries of one found point; values below 1e-10 are skipped. *)
Fixpoint row_entries (n : nat) (i_dir j_dir row : nat) (col : nat -> nat) (values : nat -> R) : list entry :=
  match n with
  | O => []
  | S k => row_entries k i_dir j_dir row col values ++
           (if Rlt_dec (Rabs (values k)) tol then [] else [((i_dir - 1)%nat, (j_dir - 1)%nat, row, col k, values k)])
  end.

(** Matrix entries caused by one event (SemiLagrangian.cpp:260-270 and 489-511). *)
Definition event_entries {cell} (M : mesh cell) (shape : nat -> point -> R) (dofs : cell -> nat -> nat) (n : nat)
    (ev : event cell) : outcome (list entry) :=
  match ev with
  | Diagonal el => Ok [((dest_direction el - 1)%nat, (dest_direction el - 1)%nat, dest_index el, dest_index el, 1)]
  | Found el => obind (shapeValues M shape (currentCell el) (departurePoint el)) (fun v =>
      Ok (row_entries n (dest_direction el) (currentDirection el) (dest_index el) (dofs (currentCell el)) v))
  | _ => Ok []
  end.

(** Action of a list of entries on populations: row [i] of block [a] (matrix vector product). *)
Definition entry_term (f : nat -> nat -> R) (a i : nat) (en : entry) : R :=
  let '(a', b, i', j, v) := en in if (Nat.eqb a a' && Nat.eqb i i')%bool then v * f b j else 0.
Definition apply_row (entries : list entry) (f : nat -> nat -> R) (a i : nat) : R :=
  fold_right (fun en acc => entry_term f a i en + acc) 0 entries.

(** The same for the sparsity pattern (SemiLagrangian.cpp:255-258, 492-498): positions only, the block
    row is the row index of the call. *)
Definition event_positions {cell} (M : mesh cell) (shape : nat -> point -> R) (dofs : cell -> nat -> nat) (n row_index : nat)
    (ev : event cell) : outcome (list (nat * nat * nat * nat)) :=
  match ev with
  | Diagonal el => Ok [(row_index, (dest_direction el - 1)%nat, dest_index el, dest_index el)]
  | Found el => obind (shapeValues M shape (currentCell el) (departurePoint el)) (fun v =>
      Ok (map (fun en => let '(_, b, i, j, _) := en in (row_index, b, i, j))
            (row_entries n (dest_direction el) (currentDirection el) (dest_index el) (dofs (currentCell el)) v)))
  | _ => Ok []
  end.

(** SemiLagrangian.cpp:213-224: support points not yet tracked (one process: all degrees of freedom
    are locally owned). *)
Fixpoint new_points (n : nat) (dof : nat -> nat) (pt : nat -> point) (tracked : list nat) : list (nat * point) * list nat :=
  match n with
  | O => ([], tracked)
  | S k => let (p, tr) := new_points k dof pt tracked in
           if existsb (Nat.eqb (dof k)) tr then (p, tr) else (p ++ [(dof k, pt k)], dof k :: tr)
  end.

(** All events of a list, one after the other. *)
Fixpoint collect {A B} (g : A -> outcome (list B)) (l : list A) : outcome (list B) :=
  match l with
  | [] => Ok []
  | a :: r => obind (g a) (fun x => obind (collect g r) (fun y => Ok (x ++ y)))
  end.

Section Assembly.
  Context {cell : Type} (M : mesh cell) (e : nat -> point) (opp : nat -> nat) (dt : R)
          (n : nat) (node : nat -> point) (dofs : cell -> nat -> nat).
  (** SemiLagrangian.cpp:144-513 fillSparseObject: loop over the cells.  [dirs] and [g] distinguish
      the two uses.  (Ordering of the found points by cell left out; entries are added.) *)
  Fixpoint fill {B} (dirs : list nat) (g : event cell -> outcome (list B)) (cells : list cell) (tracked : list nat)
      : option (outcome (list B)) :=
    match cells with
    | [] => Some (Ok [])
    | c :: rest =>
        let (pts, tracked') := new_points n (dofs c) (fun j => to_real M c (node j)) tracked in
        let q := start_trackers e dt dirs c pts in
        match path_loop M e opp dt (51 * length q) q, fill dirs g rest tracked' with
        | Some evs, Some r => Some (obind evs (fun l => obind (collect g l) (fun x => obind r (fun y => Ok (x ++ y)))))
        | _, _ => None
        end
    end.
  (** SemiLagrangian.cpp:74-90 reassemble: fillSparseObject(false). *)
  Definition assemble (Q : nat) (shape : nat -> point -> R) (cells : list cell) : option (outcome (list entry)) :=
    fill (List.seq 1 (Q - 1)) (event_entries M shape dofs n) cells [].
  (** SemiLagrangian.cpp:92-142 updateSparsityPattern: fillSparseObject(true, row_index) for one row. *)
  Definition pattern (Q : nat) (shape : nat -> point -> R) (cells : list cell) (row_index : nat)
      : option (outcome (list (nat * nat * nat * nat))) :=
    fill (List.filter (fun a => Nat.eqb (a - 1) row_index) (List.seq 1 (Q - 1))) (event_positions M shape dofs n row_index) cells [].
End Assembly.
