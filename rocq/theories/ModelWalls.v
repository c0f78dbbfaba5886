(** Model of the semi-Lagrangian boundary handling: boundaries/BoundaryHit.h,
    SemiLagrangianBoundaryHandler.cpp, FEBoundaryValues.h (points only), VelocityNeqBounceBack.cpp,
    SLFirstOrderBounceBack.h, and the semi-Lagrangian branch of CFDSolver::stream. *)
From Verif Require Import Prelude ModelSemiLagrangian.
Local Open Scope R_scope.

(** ** std::map (libstdc++, bits/stl_tree.h) with an arbitrary comparison function.
    A tree; positions are in-order positions.  The rebalancing after an insertion is a parameter
    of [map_add]: any function that keeps the in-order sequence. *)
Section Map.
  Context {K V : Type} (less : K -> K -> bool).
  Inductive tree := Leaf | Node (l : tree) (k : K) (v : V) (r : tree).
  Fixpoint elements (t : tree) : list (K * V) :=
    match t with Leaf => [] | Node l k v r => elements l ++ (k, v) :: elements r end.
  Definition size (t : tree) : nat := length (elements t).
  (** _M_lower_bound: [base] elements lie to the left of [t], [y] is the candidate so far (None = end). *)
  Fixpoint lower_bound (t : tree) (x : K) (base : nat) (y : option nat) : option nat :=
    match t with
    | Leaf => y
    | Node l k _ r => if less k x then lower_bound r x (base + size l + 1) y
                      else lower_bound l x base (Some (base + size l)%nat)
    end.
  (** find. *)
  Definition map_find (t : tree) (x : K) : option nat :=
    match lower_bound t x 0 None with
    | None => None
    | Some p => match nth_error (elements t) p with
                | Some (k, _) => if less x k then None else Some p
                | None => None
                end
    end.
  (** Descent of _M_get_insert_unique_pos: number of elements to the left of the leaf reached. *)
  Fixpoint insert_pos (t : tree) (x : K) : nat :=
    match t with
    | Leaf => 0
    | Node l k _ r => if less x k then insert_pos l x else (size l + 1 + insert_pos r x)%nat
    end.
  Fixpoint insert_leaf (t : tree) (x : K) (v : V) : tree :=
    match t with
    | Leaf => Node Leaf x v Leaf
    | Node l k w r => if less x k then Node (insert_leaf l x v) k w r else Node l k w (insert_leaf r x v)
    end.
  (** Change of the value at a position (through the iterator). *)
  Fixpoint change (t : tree) (p : nat) (g : V -> V) : tree :=
    match t with
    | Leaf => Leaf
    | Node l k v r => if Nat.ltb p (size l) then Node (change l p g) k v r
                      else if Nat.eqb p (size l) then Node l k (g v) r
                      else Node l k v (change r (p - size l - 1) g)
    end.
  (** BoundaryHit.h:127-136: find; if missing, insert(make_pair(x, empty)); then change the value
      found.  insert looks at the predecessor of the insertion point: if it is not less than [x],
      nothing is inserted and the predecessor is returned. *)
  Definition map_add (rebalance : tree -> tree) (empty : V) (g : V -> V) (t : tree) (x : K) : tree :=
    match map_find t x with
    | Some p => change t p g
    | None =>
        let p := insert_pos t x in
        match p with
        | O => rebalance (insert_leaf t x (g empty))
        | S j => match nth_error (elements t) j with
                 | Some (k, _) => if less k x then rebalance (insert_leaf t x (g empty)) else change t j g
                 | None => t
                 end
        end
    end.
End Map.
Arguments tree : clear implicits.

(** ** BoundaryHit.h:19-83 *)
Record hit (cell : Type) := mkHit {
  hit_index : nat; hit_direction : nat; (* destination *)
  hit_dt : R; hit_point : point; hit_boundary : nat; hit_cell : cell }.
Arguments mkHit {cell}. Arguments hit_index {cell}. Arguments hit_direction {cell}. Arguments hit_dt {cell}.
Arguments hit_point {cell}. Arguments hit_boundary {cell}. Arguments hit_cell {cell}.

Definition dist (D : nat) (x y : point) : R := sqrt (dot D (fun i => x i - y i) (fun i => x i - y i)).
(** BoundaryHit.h:100-106 PointComp. *)
Definition PointComp (D : nat) (x y : point) : bool := if Rlt_dec (dist D x y) tol then true else false.

Section Walls.
  Context {cell : Type} (M : mesh cell) (e : nat -> point) (w : nat -> R) (cs2 : R) (opp : nat -> nat) (dt : R).

  (** BoundaryHit.h:36-53. *)
  Definition make_hit (el : tracker cell) (bi : nat) : hit cell :=
    mkHit (dest_index el) (dest_direction el)
      (dt - dist (dim M) (currentPoint el) (departurePoint el) / norm M (e (currentDirection el)))
      (currentPoint el) bi (currentCell el).
  (** SemiLagrangian.cpp:383, 413: calls of addHit, in order. *)
  Definition event_hits (ev : event cell) : outcome (list (hit cell)) :=
    match ev with
    | ContinueHit el bi | Hit el bi => Ok [make_hit el bi]
    | _ => Ok []
    end.
  (** All hits of reassemble(). *)
  Definition all_hits (n : nat) (node : nat -> point) (dofs : cell -> nat -> nat) (Q : nat) (cells : list cell)
      : option (outcome (list (hit cell))) :=
    fill M e opp dt n node dofs (List.seq 1 (Q - 1)) event_hits cells [].

  (** ** BoundaryHit.h:88-98, 108-196: hit lists.  HitList is a std::map over cells with a proper
      order; here a function with [Leaf] for missing cells. *)
  Definition hit_tree := tree point (list (hit cell)).
  Variable same_cell : cell -> cell -> bool.
  Variable rebalance : hit_tree -> hit_tree.
  Definition addHit (m : cell -> hit_tree) (h : hit cell) : cell -> hit_tree :=
    fun c => if same_cell (hit_cell h) c
             then map_add (PointComp (dim M)) rebalance [] (fun l => l ++ [h]) (m c) (hit_point h) else m c.
  Definition hit_list (hs : list (hit cell)) : cell -> hit_tree := fold_left addHit hs (fun _ => Leaf).
  (** SemiLagrangianBoundaryHandler::n_hits for a list of cells. *)
  Definition n_hits (m : cell -> hit_tree) (cells : list cell) : nat :=
    length (flat_map (fun c => flat_map snd (elements (m c))) cells).

  (** FEBoundaryValues::getPoint (FEBoundaryValues.h:223-225) of the quadrature made by
      makeQuadratureAtPoints (SemiLagrangianTools.cpp:107-137) from the real points. *)
  Definition getPoint (c : cell) (x : point) : outcome point :=
    match to_unit M c x with
    | None => Throw
    | Some u => let h := snap_point u in if all_inside (dim M) h then Ok h else Throw
    end.

  (** Populations: direction, degree of freedom. *)
  Definition populations := nat -> nat -> R.
  Definition set_pop (f : populations) (a i : nat) (v : R) : populations :=
    fun a' i' => if (Nat.eqb a' a && Nat.eqb i' i)%bool then v else f a' i'.

  (** Boundary conditions: prescribed functions take time and point. *)
  Inductive condition :=
  | VelocityBB (u : R -> point -> point)        (* VelocityNeqBounceBack.cpp:138-203 *)
  | FirstOrderBB                                (* SLFirstOrderBounceBack.h:76-105 *)
  | AssignBC (value : R -> point -> nat -> R).  (* any condition that assigns a value: SLEquilibriumBoundary.h:67-183 *)

  (** calculateBoundaryValues: [x] is getPoint(q_point), [eps] is dtHit. *)
  Definition calculateBoundaryValues (bc : condition) (f : populations) (x : point) (a i : nat) (eps t : R) : populations :=
    match bc with
    | VelocityBB u => set_pop f a i (f a i + 2 * w a * 1 * dot (dim M) (u (t - eps) x) (e a) / cs2)
    | FirstOrderBB => set_pop f a i (f (opp a) i)
    | AssignBC value => set_pop f a i (value (t - eps) x a)
    end.

  Variable bc : nat -> condition.
  Definition apply_hit (x : point) (t : R) (f : populations) (h : hit cell) : populations :=
    calculateBoundaryValues (bc (hit_boundary h)) f x (hit_direction h) (hit_index h) (hit_dt h) t.
  (** SemiLagrangianBoundaryHandler.cpp:45-117 operate, one cell: first the quadrature for all points,
      then all hits at each point.  (The test that all boundaries at the cell support the scheme is
      left out: addHit asserts it for the boundaries hit.) *)
  Fixpoint quadrature (c : cell) (l : list (point * list (hit cell))) : outcome (list (point * list (hit cell))) :=
    match l with
    | [] => Ok []
    | (x, hs) :: r => obind (getPoint c x) (fun u => obind (quadrature c r) (fun q => Ok ((u, hs) :: q)))
    end.
  Definition operate_cell (t : R) (c : cell) (tr : hit_tree) (f : populations) : outcome populations :=
    obind (quadrature c (elements tr)) (fun q =>
      Ok (fold_left (fun f uh => fold_left (apply_hit (fst uh) t) (snd uh) f) q f)).
  (** All cells, in the order of the mesh. *)
  Fixpoint operate (t : R) (cells : list cell) (m : cell -> hit_tree) (f : populations) : outcome populations :=
    match cells with
    | [] => Ok f
    | c :: r => obind (operate_cell t c (m c) f) (operate t r m)
    end.

  (** CFDSolver.cpp:669-721 stream, semi-Lagrangian branch (without multistep schemes and limiter):
      matrix times populations (direction 0 stays), boundary conditions with the time m_time of the
      beginning of the step, then m_time += dt. *)
  Definition multiply (z : list entry) (f : populations) : populations :=
    fun a i => match a with O => f 0%nat i | S b => apply_row z (fun c j => f (S c) j) b i end.
  Definition stream (z : list entry) (m : cell -> hit_tree) (cells : list cell) (s : populations * R)
      : outcome (populations * R) :=
    let (f, m_time) := s in
    obind (operate m_time cells m (multiply z f)) (fun f' => Ok (f', m_time + dt)).
End Walls.
