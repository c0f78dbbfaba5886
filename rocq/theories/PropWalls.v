(** C50 (time of a boundary hit), C51 (place of a hit), C52 (fluid moving with its walls), C53 (first-order
    bounce-back), C54 (time of the wall velocity), C55 (paths at the limit of crossings). *)
From Coq Require Import Permutation.
From Verif Require Import Prelude BigSum ModelStencils ModelSemiLagrangian SpecSemiLagrangian ModelWalls SpecWalls ProofWalls ProofWalls2 ProofWalls3
  ProofWalls4 ProofWalls5 ProofWalls6 ProofWalls7 ProofWalls8 ProofWalls9 ProofWalls10 ProofWalls11 ProofWalls12.
Local Open Scope R_scope.

(** ** C50: the time stored with a hit is the time needed from the wall to the destination: length of
    the path from the support point back to the wall, over the speed.  Crossing points may deviate by
    [eta] from straight lines (round-off removal); at most 50 crossings. *)
Theorem C50_hit_time : forall (cell : Type) (M : mesh cell) e opp dt eta Q, 0 <= dt -> rigid M -> straight_within M eta -> opposites Q opp ->
  (forall a, (1 <= a < Q)%nat -> 0 < norm M (e a) /\ norm M (e (opp a)) = norm M (e a)) ->
  forall n node dofs cells hs, 0 <= eta -> all_hits M e opp dt n node dofs Q cells = Some (Ok hs) ->
  forall h, In h hs -> exists c j m s el, In c cells /\ (j < n)%nat /\ (1 <= hit_direction h < Q)%nat /\ hit_index h = dofs c j /\
    travelled M e opp dt (departs M e dt c (dofs c j) (to_real M c (node j)) (hit_direction h)) m s el /\
    hit_point h = currentPoint el /\ hit_cell h = currentCell el /\
    Rabs (hit_dt h - s / norm M (e (hit_direction h))) <= 100 * eta / norm M (e (hit_direction h)).
Proof. exact @hit_times. Qed.
Print Assumptions C50_hit_time.
(** A channel with two hits per path. *)
Example C50_hit_time_ex : 0 <= 2 /\ rigid C4 /\ straight_within C4 (3 / 10 ^ 9) /\ opposites 9 opp9 /\
  (forall a, (1 <= a < 9)%nat -> 0 < norm C4 (e9 a) /\ norm C4 (e9 (opp9 a)) = norm C4 (e9 a)) /\
  exists hs h h', all_hits C4 e9 opp9 2 1 mid dofs1 9 [tt] = Some (Ok hs) /\ hits_for 5 0 hs = [h; h'] /\ hit_dt h = 1 / 2 /\ hit_dt h' = 3 / 2.
Proof. exact time_example. Qed.

(** ** C51 *)
(** No hit is lost or doubled in the hit lists, although PointComp is not an order. *)
Theorem C51_hits_kept : forall (cell : Type) (M : mesh cell) same rebalance, keeps_order rebalance -> forall hs cells,
  decides same -> NoDup cells -> (forall h, In h hs -> In (hit_cell h) cells) ->
  Permutation (flat_map (fun c => flat_map snd (elements (hit_list M same rebalance hs c))) cells) hs.
Proof. exact @hit_list_all. Qed.
Print Assumptions C51_hits_kept.
(** What happens instead of evaluation at the hit: all hits of a cell use the first hit point of the
    cell, in unit coordinates. *)
Theorem C51_first_point : forall (cell : Type) (M : mesh cell) e w cs2 opp same rebalance bc vel, keeps_order rebalance ->
  forall t cells hs f f' (x1 : cell -> point) a i, decides same -> NoDup cells ->
  (forall h, In h hs -> In (hit_cell h) cells) ->
  (forall h, In h hs -> bc (hit_boundary h) = VelocityBB (vel (hit_boundary h))) ->
  (forall c h r, In c cells -> List.filter (fun h => same (hit_cell h) c) hs = h :: r -> hit_point h = x1 c) ->
  (forall h, In h hs -> hit_point h = x1 (hit_cell h) \/ tol <= dist (dim M) (hit_point h) (x1 (hit_cell h))) ->
  operate M e w cs2 opp bc t cells (hit_list M same rebalance hs) f = Ok f' ->
  forall u1, (forall c u, In c cells -> getPoint M c (x1 c) = Ok u -> u1 c = u) ->
  f' a i = f a i + sum_over (fun h => exchange (dim M) e w cs2 a (vel (hit_boundary h) (t - hit_dt h) (u1 (hit_cell h)))) (hits_for a i hs).
Proof. exact @first_hit_walls. Qed.
Print Assumptions C51_first_point.
Example C51_first_point_ex : keeps_order keep1 /\ decides same1 /\ NoDup [tt] /\ exists f' z hs (h2 : hit unit) u,
  all_hits C4 e9 opp9 1 1 mid dofs1 9 [tt] = Some (Ok hs) /\ assemble C4 e9 opp9 1 1 mid dofs1 9 one_shape [tt] = Some (Ok z) /\
  operate C4 e9 w9 cs9 opp9 (fun _ => VelocityBB stretching) 0 [tt] (hit_list C4 same1 keep1 hs) (multiply z (fun _ _ => 0)) = Ok f' /\
  stream C4 e9 w9 cs9 opp9 1 (fun _ => VelocityBB stretching) z (hit_list C4 same1 keep1 hs) [tt] (fun _ _ => 0, 0) = Ok (f', 0 + 1) /\
  (forall h, In h hs -> In (hit_cell h) [tt]) /\
  (forall c h r, In c [tt] -> List.filter (fun h => same1 (hit_cell h) c) hs = h :: r -> hit_point h = hit_point h2) /\
  (forall h, In h hs -> hit_point h = hit_point h2 \/ tol <= dist (dim C4) (hit_point h) (hit_point h2)) /\
  (forall c v, In c [tt] -> getPoint C4 c (hit_point h2) = Ok v -> u = v) /\ u 0%nat = 1 / 2 /\
  (exists h, hits_for 8 0 hs = [h] /\ is_hit 8 1 (1 / 2) (9 / 2) h).
Proof. exact (conj keep1_ok (conj same1_ok (conj (proj2 (proj2 walls4_ok)) first_setting))). Qed.
(** A stretching wall, u(x) = (x_0, 0): the hit at (9/2, 1) does not get u(9/2, 1). *)
Theorem C51_place_refuted : exists f' z hs,
  all_hits C4 e9 opp9 1 1 mid dofs1 9 [tt] = Some (Ok hs) /\ assemble C4 e9 opp9 1 1 mid dofs1 9 one_shape [tt] = Some (Ok z) /\
  stream C4 e9 w9 cs9 opp9 1 (fun _ => VelocityBB stretching) z (hit_list C4 same1 keep1 hs) [tt] (fun _ _ => 0, 0) = Ok (f', 0 + 1) /\
  f' 8%nat 0%nat <> multiply z (fun _ _ => 0) 8%nat 0%nat +
    sum_over (fun h => exchange 2 e9 w9 cs9 8 (stretching (0 - hit_dt h) (hit_point h))) (hits_for 8 0 hs).
Proof. exact place_refuted. Qed.
Print Assumptions C51_place_refuted.

(** ** C52 *)
(** A fluid at rest between walls at rest stays at rest, whatever the paths do. *)
Theorem C52_rest : forall (cell : Type) (M : mesh cell) e w cs2 opp dt n node dofs Q shape cells same rebalance bc U F B m_time f' t' z hs,
  wall_setting M e w cs2 opp dt n node dofs Q shape cells same rebalance bc U F B m_time f' t' z hs ->
  (forall a, (1 <= a < Q)%nat -> F (opp a) = F a /\ exchange (dim M) e w cs2 a U = 0) ->
  forall a c j, (1 <= a < Q)%nat -> In c cells -> (j < n)%nat -> Rabs (f' a (dofs c j) - F a) <= INR n * (tol * B).
Proof. exact @steady_rest. Qed.
Print Assumptions C52_rest.
Example C52_rest_ex : exists f' z hs,
  wall_setting C4 e9 w9 cs9 opp9 2 1 mid dofs1 9 one_shape [tt] same1 keep1 (fun _ => VelocityBB (fun _ _ _ => 0)) (fun _ => 0) w9 1 0 f' (0 + 2) z hs /\
  (forall a, (1 <= a < 9)%nat -> w9 (opp9 a) = w9 a /\ exchange 2 e9 w9 cs9 a (fun _ => 0) = 0) /\ length (hits_for 5 0 hs) = 2%nat.
Proof. exact rest_example. Qed.
(** Fluid and walls with a common velocity: kept for populations whose path meets at most one wall and
    is not dropped.  Missing: paths with several hits, see below. *)
Theorem C52_moving_partial : forall (cell : Type) (M : mesh cell) e w cs2 opp dt n node dofs Q shape cells same rebalance bc U F B m_time f' t' z hs,
  wall_setting M e w cs2 opp dt n node dofs Q shape cells same rebalance bc U F B m_time f' t' z hs ->
  none_dropped M e opp dt Q n node cells ->
  (forall a, (1 <= a < Q)%nat -> F (opp a) + exchange (dim M) e w cs2 a U = F a) ->
  forall a c j, (1 <= a < Q)%nat -> In c cells -> (j < n)%nat -> (length (hits_for a (dofs c j) hs) <= 1)%nat ->
  Rabs (f' a (dofs c j) - F a) <= INR n * (tol * B).
Proof. exact @steady_moving. Qed.
Print Assumptions C52_moving_partial.
Example C52_moving_ex : exists f' z hs,
  wall_setting C4 e9 w9 cs9 opp9 1 1 mid dofs1 9 one_shape [tt] same1 keep1 (fun _ => VelocityBB (fun _ _ => drift)) drift moving9 1 0 f' (0 + 1) z hs /\
  none_dropped C4 e9 opp9 1 9 1 mid [tt] /\ (forall a, (1 <= a < 9)%nat -> moving9 (opp9 a) + exchange 2 e9 w9 cs9 a drift = moving9 a) /\
  (forall a, (1 <= a < 9)%nat -> (length (hits_for a 0 hs) <= 1)%nat) /\ length (hits_for 5 0 hs) = 1%nat.
Proof. exact moving_example. Qed.
(** Two hits: the momentum exchange of both walls is added instead of cancelling. *)
Theorem C52_two_hits_refuted : exists f' z hs,
  wall_setting C4 e9 w9 cs9 opp9 2 1 mid dofs1 9 one_shape [tt] same1 keep1 (fun _ => VelocityBB (fun _ _ => drift)) drift moving9 1 0 f' (0 + 2) z hs /\
  none_dropped C4 e9 opp9 2 9 1 mid [tt] /\ (forall a, (1 <= a < 9)%nat -> moving9 (opp9 a) + exchange 2 e9 w9 cs9 a drift = moving9 a) /\
  moving9 5%nat + 1 / 31 <= f' 5%nat 0%nat.
Proof. exact moving_refuted. Qed.
Print Assumptions C52_two_hits_refuted.

(** ** C53 *)
(** First-order bounce-back keeps a fluid at rest for populations whose opposite population (at the same
    support point) does not hit a wall, too. *)
Theorem C53_rest_partial : forall (cell : Type) (M : mesh cell) e w cs2 opp dt n node dofs Q shape cells,
  only_hits M -> closed_mesh M cells -> partition_of_unity (dim M) n shape ->
  forall same rebalance bc F B m_time f' t' z hs,
  opposites Q opp -> keeps_order rebalance -> decides same -> NoDup cells ->
  (forall c f b, face_behind M c f = OtherBoundary b -> bc b = FirstOrderBB) ->
  assemble M e opp dt n node dofs Q shape cells = Some (Ok z) -> all_hits M e opp dt n node dofs Q cells = Some (Ok hs) ->
  (forall a, (1 <= a < Q)%nat -> Rabs (F a) <= B /\ F (opp a) = F a) ->
  stream M e w cs2 opp dt bc z (hit_list M same rebalance hs) cells (fun a _ => F a, m_time) = Ok (f', t') ->
  forall a c j, (1 <= a < Q)%nat -> In c cells -> (j < n)%nat -> hits_for (opp a) (dofs c j) hs = [] ->
    Rabs (f' a (dofs c j) - F a) <= INR n * (tol * B).
Proof. exact @first_order_rest. Qed.
Print Assumptions C53_rest_partial.
(** Direction 5 = (1, 1) in a corner (opposite: 7). *)
Example C53_rest_ex : (only_hits O4 /\ closed_mesh O4 [tt] /\ NoDup [tt]) /\ exists f' z hs,
  assemble O4 e9 opp9 (1 / 2) 1 corner_node dofs1 9 one_shape [tt] = Some (Ok z) /\
  all_hits O4 e9 opp9 (1 / 2) 1 corner_node dofs1 9 [tt] = Some (Ok hs) /\
  stream O4 e9 w9 cs9 opp9 (1 / 2) (fun _ => FirstOrderBB) z (hit_list O4 same1 keep1 hs) [tt] (fun a _ => w9 a, 0) = Ok (f', 0 + 1 / 2) /\
  hits_for 6 0 hs <> [] /\ hits_for 8 0 hs <> [] /\ hits_for 7 0 hs = [] /\ hits_for 5 0 hs <> [].
Proof. exact (conj others4_ok first_order_setting). Qed.
(** In a corner both (-1, 1) and (1, -1) hit: both populations of a fluid at rest become zero. *)
Theorem C53_corner_refuted : exists f' z hs,
  assemble O4 e9 opp9 (1 / 2) 1 corner_node dofs1 9 one_shape [tt] = Some (Ok z) /\
  all_hits O4 e9 opp9 (1 / 2) 1 corner_node dofs1 9 [tt] = Some (Ok hs) /\
  stream O4 e9 w9 cs9 opp9 (1 / 2) (fun _ => FirstOrderBB) z (hit_list O4 same1 keep1 hs) [tt] (fun a _ => w9 a, 0) = Ok (f', 0 + 1 / 2) /\
  f' 6%nat 0%nat = 0 /\ f' 8%nat 0%nat = 0 /\ w9 6 = 1 / 36 /\ w9 8 = 1 / 36.
Proof. exact first_order_refuted. Qed.
Print Assumptions C53_corner_refuted.

(** ** C54 *)
(** Velocities that depend on time only: every hit acts once, with the time of the beginning of the step
    minus the time of flight.  (The hit happens at the end of the step minus the time of flight.) *)
Theorem C54_time_used : forall (cell : Type) (M : mesh cell) e w cs2 opp same rebalance bc vel, keeps_order rebalance ->
  forall t cells hs f f' (U : nat -> R -> point) a i, decides same -> NoDup cells ->
  (forall h, In h hs -> In (hit_cell h) cells) ->
  (forall h, In h hs -> bc (hit_boundary h) = VelocityBB (vel (hit_boundary h))) -> (forall b s x, vel b s x = U b s) ->
  operate M e w cs2 opp bc t cells (hit_list M same rebalance hs) f = Ok f' ->
  f' a i = f a i + sum_over (fun h => exchange (dim M) e w cs2 a (U (hit_boundary h) (t - hit_dt h))) (hits_for a i hs).
Proof. exact @uniform_walls. Qed.
Print Assumptions C54_time_used.
Example C54_time_used_ex : exists f' z hs, all_hits C4 e9 opp9 1 1 mid dofs1 9 [tt] = Some (Ok hs) /\ keeps_order keep1 /\ decides same1 /\ NoDup [tt] /\
  (forall h, In h hs -> In (hit_cell h) [tt]) /\ length (hits_for 8 0 hs) = 1%nat /\
  operate C4 e9 w9 cs9 opp9 (fun _ => VelocityBB speeding) 0 [tt] (hit_list C4 same1 keep1 hs) (multiply z (fun _ _ => 0)) = Ok f'.
Proof. exact operate_example. Qed.
(** Walls with velocity (t, 0), step from 0 to 1, wall hit at time 1/2: the velocity at 1/2 is not used. *)
Theorem C54_time_refuted : exists f' z hs,
  all_hits C4 e9 opp9 1 1 mid dofs1 9 [tt] = Some (Ok hs) /\ assemble C4 e9 opp9 1 1 mid dofs1 9 one_shape [tt] = Some (Ok z) /\
  stream C4 e9 w9 cs9 opp9 1 (fun _ => VelocityBB speeding) z (hit_list C4 same1 keep1 hs) [tt] (fun _ _ => 0, 0) = Ok (f', 0 + 1) /\
  (exists h, hits_for 8 0 hs = [h] /\ hit_dt h = 1 / 2) /\
  f' 8%nat 0%nat <> multiply z (fun _ _ => 0) 8%nat 0%nat +
    sum_over (fun h => exchange 2 e9 w9 cs9 8 (speeding (0 + 1 - hit_dt h) (hit_point h))) (hits_for 8 0 hs).
Proof. exact time_refuted. Qed.
Print Assumptions C54_time_refuted.

(** ** C55 *)
(** Populations whose path reaches the limit of 50 crossings are unchanged if the walls are at rest, or
    move perpendicular to the direction.  Missing: moving walls, see below. *)
Theorem C55_unchanged_partial : forall (cell : Type) (M : mesh cell) e w cs2 opp dt n node dofs Q shape cells,
  only_walls M -> closed_mesh M cells ->
  forall same rebalance bc vel f m_time f' t' z hs a c j, opposites Q opp -> partition_of_unity (dim M) n shape ->
  keeps_order rebalance -> decides same -> NoDup cells ->
  (forall c f b, face_behind M c f = BounceBack b -> bc b = VelocityBB (vel b)) ->
  (forall b t x, dot (dim M) (vel b t x) (e a) = 0) ->
  assemble M e opp dt n node dofs Q shape cells = Some (Ok z) -> all_hits M e opp dt n node dofs Q cells = Some (Ok hs) ->
  stream M e w cs2 opp dt bc z (hit_list M same rebalance hs) cells (f, m_time) = Ok (f', t') ->
  In c cells -> (j < n)%nat -> (1 <= a < Q)%nat -> reaches_limit M e opp dt n node dofs cells a (dofs c j) ->
  f' a (dofs c j) = f a (dofs c j).
Proof. exact @dropped_kept. Qed.
Print Assumptions C55_unchanged_partial.
Example C55_unchanged_ex : (only_walls K4 /\ closed_mesh K4 [tt] /\ NoDup [tt]) /\ exists f' z hs,
  assemble K4 e9 opp9 (1 / 2) 1 corner_node dofs1 9 one_shape [tt] = Some (Ok z) /\
  all_hits K4 e9 opp9 (1 / 2) 1 corner_node dofs1 9 [tt] = Some (Ok hs) /\
  reaches_limit K4 e9 opp9 (1 / 2) 1 corner_node dofs1 [tt] 6 0 /\ length (hits_for 6 0 hs) = 50%nat /\
  stream K4 e9 w9 cs9 opp9 (1 / 2) (fun _ => VelocityBB (fun _ _ _ => 0)) z (hit_list K4 same1 keep1 hs) [tt] (fun a _ => w9 a, 0) = Ok (f', 0 + 1 / 2).
Proof. exact (conj k4_ok limit_example). Qed.
(** Cavity with one moving wall (velocity 1/10), corner: the wall acts 25 times and the population
    becomes negative. *)
Theorem C55_moving_refuted : exists f' z hs,
  assemble K4 e9 opp9 (1 / 2) 1 corner_node dofs1 9 one_shape [tt] = Some (Ok z) /\
  all_hits K4 e9 opp9 (1 / 2) 1 corner_node dofs1 9 [tt] = Some (Ok hs) /\
  reaches_limit K4 e9 opp9 (1 / 2) 1 corner_node dofs1 [tt] 6 0 /\
  stream K4 e9 w9 cs9 opp9 (1 / 2) lid z (hit_list K4 same1 keep1 hs) [tt] (fun a _ => w9 a, 0) = Ok (f', 0 + 1 / 2) /\
  f' 6%nat 0%nat < 0 < w9 6.
Proof. exact limit_refuted. Qed.
Print Assumptions C55_moving_refuted.
