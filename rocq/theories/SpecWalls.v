(** Specifications for the semi-Lagrangian walls. *)
From Verif Require Import Prelude ModelSemiLagrangian SpecSemiLagrangian ModelWalls.
Local Open Scope R_scope.

(** Sum over a list. *)
Definition sum_over {A} (g : A -> R) (l : list A) : R := fold_right (fun a acc => g a + acc) 0 l.
(** The hits addressed to population [a] at degree of freedom [i]; the hits in cell [c]. *)
Definition addressed {cell} (a i : nat) (h : hit cell) : bool := (Nat.eqb (hit_direction h) a && Nat.eqb (hit_index h) i)%bool.
Definition hits_for {cell} (a i : nat) (hs : list (hit cell)) : list (hit cell) := List.filter (addressed a i) hs.
(** Momentum exchange with a wall moving with velocity [u]: 2 w_a (e_a . u) / cs2 (unit density). *)
Definition exchange (D : nat) (e : nat -> point) (w : nat -> R) (cs2 : R) (a : nat) (u : point) : R :=
  2 * w a * dot D u (e a) / cs2.
(** Rebalancing keeps the sequence of elements. *)
Definition keeps_order {K V} (rebalance : tree K V -> tree K V) : Prop := forall t, elements (rebalance t) = elements t.
(** [same] decides equality of cells. *)
Definition decides {cell} (same : cell -> cell -> bool) : Prop := forall a b, same a b = true <-> a = b.

(** Boundaries are bounce-back walls or periodic; the cells of the list are the whole mesh. *)
Definition only_walls {cell} (M : mesh cell) : Prop :=
  forall c f, match face_behind M c f with DoNothing _ | OtherBoundary _ => False | _ => True end.
Definition closed_mesh {cell} (M : mesh cell) (cells : list cell) : Prop :=
  forall c f, In c cells -> match face_behind M c f with Neighbor c' | PeriodicFace _ c' => In c' cells | _ => True end.
(** Opposite directions among the moving ones 1, ..., Q - 1. *)
Definition opposites (Q : nat) (opp : nat -> nat) : Prop :=
  forall a, (1 <= a < Q)%nat -> (1 <= opp a < Q)%nat /\ opp (opp a) = a.
(** The path of population [a] starting at node [j] of cell [c] (destination [i]), as the code sets it up. *)
Definition departs {cell} (M : mesh cell) (e : nat -> point) (dt : R) (c : cell) (i : nat) (x : point) (a : nat) : tracker cell :=
  mkTracker i a a 0 (fun k => x k + e a k * - dt) x c false.
(** No path ends at the limit of 50 crossings. *)
Definition none_dropped {cell} (M : mesh cell) (e : nat -> point) (opp : nat -> nat) (dt : R) (Q n : nat) (node : nat -> point)
    (cells : list cell) : Prop :=
  forall c i j a l el, In c cells -> (j < n)%nat -> (1 <= a < Q)%nat ->
    path_loop M e opp dt 51 [departs M e dt c i (to_real M c (node j)) a] = Some (Ok l) -> ~ In (Diagonal el) l.

(** [el] is reached from [el0] by crossing [n] faces; [s] is the length of the path. *)
Inductive travelled {cell} (M : mesh cell) (e : nat -> point) (opp : nat -> nat) (dt : R) (el0 : tracker cell)
    : nat -> R -> tracker cell -> Prop :=
| travelled_start : travelled M e opp dt el0 0 0 el0
| travelled_face n s el el' k : travelled M e opp dt el0 n s el ->
    findFace M (currentCell el) (currentPoint el) (departurePoint el) = Ok (Some k) ->
    step M e opp dt el = Ok (Continue el') \/ (exists b, step M e opp dt el = Ok (ContinueHit el' b)) \/
      (exists b, step M e opp dt el = Ok (Hit el' b)) ->
    travelled M e opp dt el0 (S n) (s + dist (dim M) (currentPoint el) (cr_point k)) el'.
(** Crossing points are on the straight path up to [eta]. *)
Definition straight_within {cell} (M : mesh cell) (eta : R) : Prop :=
  forall c x y k, findFace M c x y = Ok (Some k) ->
    exists l, 0 <= l <= 1 /\ dist (dim M) (cr_point k) (fun i => x i + l * (y i - x i)) <= eta.
(** Periodic transport keeps distances; no do-nothing boundary. *)
Definition rigid {cell} (M : mesh cell) : Prop :=
  forall c f, match face_behind M c f with
              | PeriodicFace across _ => forall x y, dist (dim M) (across x) (across y) = dist (dim M) x y
              | DoNothing _ => False
              | _ => True
              end.

(** Boundaries are periodic or end the path with a hit (first-order bounce-back and others). *)
Definition only_hits {cell} (M : mesh cell) : Prop :=
  forall c f, match face_behind M c f with DoNothing _ | BounceBack _ => False | _ => True end.

(** One step: the matrix [z] and the hits [hs] are assembled, then all populations start with the
    values [F] (the same at all nodes) and are streamed; all walls move with velocity [U]. *)
Definition wall_setting {cell} (M : mesh cell) (e : nat -> point) (w : nat -> R) (cs2 : R) (opp : nat -> nat) (dt : R)
    (n : nat) (node : nat -> point) (dofs : cell -> nat -> nat) (Q : nat) (shape : nat -> point -> R) (cells : list cell)
    (same : cell -> cell -> bool) (rebalance : hit_tree (cell := cell) -> hit_tree (cell := cell)) (bc : nat -> condition)
    (U : point) (F : nat -> R) (B m_time : R) (f' : populations) (t' : R) (z : list entry) (hs : list (hit cell)) : Prop :=
  only_walls M /\ closed_mesh M cells /\ opposites Q opp /\ partition_of_unity (dim M) n shape /\
  keeps_order rebalance /\ decides same /\ NoDup cells /\
  (forall c f b, face_behind M c f = BounceBack b -> bc b = VelocityBB (fun _ _ => U)) /\
  assemble M e opp dt n node dofs Q shape cells = Some (Ok z) /\ all_hits M e opp dt n node dofs Q cells = Some (Ok hs) /\
  (forall a, (1 <= a < Q)%nat -> Rabs (F a) <= B) /\
  stream M e w cs2 opp dt bc z (hit_list M same rebalance hs) cells (fun a _ => F a, m_time) = Ok (f', t').
(** All paths to population [a] at degree of freedom [i] end at the limit of 50 crossings. *)
Definition reaches_limit {cell} (M : mesh cell) (e : nat -> point) (opp : nat -> nat) (dt : R) (n : nat) (node : nat -> point)
    (dofs : cell -> nat -> nat) (cells : list cell) (a i : nat) : Prop :=
  forall c j, In c cells -> (j < n)%nat -> dofs c j = i -> exists l el,
    path_loop M e opp dt 51 [departs M e dt c i (to_real M c (node j)) a] = Some (Ok l) /\ In (Diagonal el) l.
