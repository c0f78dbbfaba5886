(** Model of BoundaryTools.cpp:20-160 (lines of periodic interfaces) and Math::is_angle_small (Math.h:58-69),
    own_double_less (Math.h:132-143). *)
From Verif Require Import Prelude.
Local Open Scope R_scope.

Definition pt := (R * R)%type.
Definition sub (a b : pt) : pt := (fst a - fst b, snd a - snd b).
Definition dot2 (a b : pt) : R := fst a * fst b + snd a * snd b.
Definition norm2 (a : pt) : R := sqrt (dot2 a a).
Definition distance (a b : pt) : R := norm2 (sub a b).

(** Math.h:61-69.  A zero vector gives 0/0; the comparison is false.  Math::PI (24) is taken for the number it approximates. *)
Definition is_angle_small (v w : pt) (thresholdDegrees : R) : bool :=
  if Req_EM_T (norm2 v * norm2 w) 0 then false
  else if Req_EM_T thresholdDegrees 0 then if Rlt_dec (99/100) (dot2 v w / (norm2 v * norm2 w)) then true else false
  else if Rlt_dec (cos (thresholdDegrees / PI * 180)) (dot2 v w / (norm2 v * norm2 w)) then true else false.

Inductive line_error := PointsEqual | LengthsDiffer | NotParallel.
Definition is_zero (x : R) : bool := if Req_EM_T x 0 then true else false.

(** checkParallelLines (BoundaryTools.cpp:20-68): the return value with beginLine2, endLine2 after the call; abs is that of
    doubles. *)
Definition checkParallelLines (b1 e1 b2 e2 : pt) : (bool * (pt * pt)) * option line_error :=
  let l1 := distance b1 e1 in
  let l2 := distance b2 e2 in
  if is_zero l1 || is_zero l2 || is_zero (distance b1 b2) || is_zero (distance e1 e2) || is_zero (distance b1 e2) || is_zero (distance b2 e1)
  then ((false, (b2, e2)), Some PointsEqual)
  else if Rlt_dec (1/100) (Rabs (l1 - l2) / l1) then ((false, (b2, e2)), Some LengthsDiffer)
  else
    let d1 := sub e1 b1 in
    if negb (is_angle_small d1 (sub e2 b2) 0) then
      if negb (is_angle_small d1 (sub b2 e2) 0) then ((false, (b2, e2)), Some NotParallel)
      else ((true, (e2, b2)), None)
    else ((true, (b2, e2)), None).

(** ** getInterfacialLinesByBoundaryIndicator (70-160) *)
(** Math.h:137-141 with epsilon = 1e-6 *)
Definition own_double_less (a b : R) : bool :=
  if Rlt_dec (1/1000000) (Rabs (a - b)) then if Rlt_dec a b then true else false else false.
(** std::map with this order, as the sequence of its elements: insert (99, 112) searches from the left and leaves the map as it is if
    there is an equivalent key.  (The order is no strict weak order; where equivalence is not transitive the tree of
    the C++ library may find another place.) *)
Fixpoint insert (k : R) (p : pt) (l : list (R * pt)) : list (R * pt) :=
  match l with
  | [] => [(k, p)]
  | (k', p') :: r => if own_double_less k' k then (k', p') :: insert k p r
                     else if own_double_less k k' then (k, p) :: l else l
  end.
(** 97-101, 109-114 *)
Definition key (p : pt) : R := 1000 * fst p + snd p.
Definition points (vs : list pt) : list (R * pt) := fold_left (fun l p => insert (key p) p l) vs [].

(** The faces of the cells at the boundary in the order of the loop 89-120: boundary_id and vertices. *)
Definition face := (nat * (pt * pt))%type.
Definition vertices (id : nat) (faces : list face) : list pt :=
  flat_map (fun f => if Nat.eqb (fst f) id then [fst (snd f); snd (snd f)] else []) faces.
(** 103-104: the faces of the second boundary are searched among those that do not belong to the first. *)
Definition vertices2 (id1 id2 : nat) (faces : list face) : list pt :=
  flat_map (fun f => if Nat.eqb (fst f) id1 then [] else if Nat.eqb (fst f) id2 then [fst (snd f); snd (snd f)] else []) faces.

(** 130-143, 144-156: the loop from ++begin() to --end(); with a single element it starts behind the last element and
    reads it: UB.  [b], [e]: begin and end point. *)
Definition all_on_line (l : list (R * pt)) : outcome (pt * pt * bool) :=
  match l with
  | [] => UB
  | [_] => UB
  | (_, b) :: r => let e := snd (last r (0, b)) in
      Ok (b, e, forallb (fun x => is_angle_small (sub e b) (sub (snd x) b) 0) (removelast r))
  end.

Definition getInterfacialLines (id1 id2 : nat) (faces : list face) : outcome (bool * ((pt * pt) * (pt * pt))) :=
  obind (all_on_line (points (vertices id1 faces))) (fun x1 =>
  obind (all_on_line (points (vertices2 id1 id2 faces))) (fun x2 =>
  let '(b1, e1, ok1) := x1 in let '(b2, e2, ok2) := x2 in
  Ok ((ok1 && ok2)%bool, ((b1, e1), (b2, e2))))).
