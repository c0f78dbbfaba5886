(** The controller of the turbulent channel: src/examples/step-turbulentChannel/AdaptiveForcing.{h,cpp} and
    FinalChannelStatistics.cpp (updateYValues).  Real arithmetic; NaN and reading from an empty set are [UB]. *)
From Verif Require Import Prelude ModelCollision.
Local Open Scope R_scope.

(** A point visited by the loop over the locally owned cells (AdaptiveForcing.cpp:125-154): y coordinate of the
    support point, density and x velocity of its degree of freedom. *)
Record visit := { vi_y : R; vi_rho : R; vi_u : R }.

(** ** Coordinates (FinalChannelStatistics.cpp:67-150) *)
(** Math.h:137-141 with epsilon = 1e-6, and the order of std::set<double> *)
Definition tolerant_less (a b : R) : bool :=
  if Rlt_dec (1/1000000) (Rabs (a - b)) then if Rlt_dec a b then true else false else false.
Definition exact_less (a b : R) : bool := if Rlt_dec a b then true else false.
(** std::set and std::map as the sequence of their elements; insert leaves an equivalent key as it is.  (Where
    equivalence is not transitive the tree of the C++ library may find another place.) *)
Fixpoint put {A} (less : R -> R -> bool) (k : R) (v : A) (l : list (R * A)) : list (R * A) :=
  match l with
  | [] => [(k, v)]
  | (k', v') :: r => if less k' k then (k', v') :: put less k v r else if less k k' then (k, v) :: l else l
  end.
Definition set_of (less : R -> R -> bool) (ys : list R) : list R := map fst (fold_left (fun l y => put less y tt l) ys []).
Fixpoint find_key (y : R) (l : list (R * nat)) : option nat :=
  match l with
  | [] => None
  | (k, v) :: r => if tolerant_less k y then find_key y r else if tolerant_less y k then None else Some v
  end.
(** 75-133: the sets of the processes are joined; 105-107: a process with fewer coordinates sends its first one
    several times, reading the first element of an empty set if it has none. *)
Definition updateYValues (processes : list (list visit)) : outcome (list R) :=
  let sets := map (fun p => set_of tolerant_less (map vi_y p)) processes in
  let none s := match s with [] => true | _ => false end in
  if existsb none sets && existsb (fun s => negb (none s)) sets then UB
  else Ok (set_of exact_less (concat sets)).
(** 128-137: m_yCoordinateToIndex *)
Definition index_map (ys : list R) : list (R * nat) :=
  snd (fold_left (fun il y => (S (fst il), put tolerant_less y (fst il) (snd il))) ys (O, [])).

(** ** calculateRhoU (AdaptiveForcing.cpp:98-177) *)
Definition plane_visits (m : list (R * nat)) (i : nat) (vs : list visit) : list visit :=
  filter (fun v => match find_key (vi_y v) m with Some j => Nat.eqb j i | None => false end) vs.
(** 156-163: 0/0 without a point *)
Definition average (m : list (R * nat)) (vs : list visit) (q : visit -> R) (i : nat) : outcome R :=
  let l := plane_visits m i vs in
  match l with [] => UB | _ => Ok (fold_right (fun v s => q v + s) 0 l / INR (length l)) end.
Fixpoint averages (m : list (R * nat)) (vs : list visit) (q : visit -> R) (is : list nat) : outcome (list R) :=
  match is with
  | [] => Ok []
  | i :: r => obind (average m vs q i) (fun a => obind (averages m vs q r) (fun l => Ok (a :: l)))
  end.
(** 166-172 *)
Fixpoint windows (ys avs : list R) : R :=
  match ys, avs with
  | y0 :: (y1 :: _) as ys', a0 :: (a1 :: _) as avs' => Rabs (y1 - y0) * (1/2) * (a0 + a1) + windows ys' avs'
  | _, _ => 0
  end.
(** The pair (m_currentValueRhoU, m_currentRho).  142-145: a coordinate that is not in the map; without any
    coordinate m_nofCoordinates - 1 wraps around and at() throws. *)
Definition calculateRhoU (processes : list (list visit)) : outcome (R * R) :=
  obind (updateYValues processes) (fun ys =>
  let m := index_map ys in let vs := concat processes in
  if existsb (fun v => match find_key (vi_y v) m with None => true | Some _ => false end) vs then Throw
  else obind (averages m vs (fun v => vi_rho v * vi_u v) (seq 0 (length ys))) (fun a =>
       obind (averages m vs vi_rho (seq 0 (length ys))) (fun r =>
       match ys with [] => Throw | _ => Ok (windows ys a / 2, windows ys r / 2) end))).

(** ** calculateForce (451-483) *)
Record controller := { af_integral : R; af_force : R }.
(** Constructor (17-22).  m_force is not initialised, but overwritten before its value matters; 0 stands for it. *)
Definition fresh_controller : controller := {| af_integral := 0; af_force := 0 |}.
Definition kp : R := 50.
Definition ki : R := 5 / 100.
Definition calculateForce (starting_force target value : R) (c : controller) : controller :=
  let error := target - value in
  let integral := af_integral c + error in
  let output := kp * error + ki * integral in
  let f1 := if Rlt_dec (5 * starting_force) output then 5 * starting_force else output in
  let f2 := if Rlt_dec f1 (- 2 * starting_force) then - 2 * starting_force else f1 in
  {| af_integral := integral; af_force := f2 |}.

(** ** apply (71-96) *)
(** 192-195 and DistributionFunctions.cpp:192-210: the populations f are multiplied, g is not. *)
Definition scaleF (k : R) (f : nat -> R) (i : nat) : R := k * f i.
(** One call: new controller, the factor for scaleF and the row written to adaptive_forcing.txt (179-190). *)
Record row := { row_iteration : nat; row_rho : R; row_target : R; row_value : R; row_force : R }.
Definition apply (starting_force target : R) (iteration : nat) (processes : list (list visit)) (c : controller)
  : outcome (controller * R * list row) :=
  if Nat.eqb (iteration mod 10) 0 then
    obind (calculateRhoU processes) (fun m =>
    let c' := calculateForce starting_force target (fst m) c in
    if Req_EM_T (snd m) 0 then UB
    else Ok (c', 1 / snd m, [{| row_iteration := iteration; row_rho := snd m; row_target := target; row_value := fst m; row_force := af_force c' |}]))
  else Ok (c, 1, []).
(** A run: the fields visited at every iteration from the first on. *)
Fixpoint applies (starting_force target : R) (iteration : nat) (run : list (list (list visit))) (c : controller)
  : outcome (controller * list row) :=
  match run with
  | [] => Ok (c, [])
  | p :: rest => obind (apply starting_force target iteration p c) (fun o =>
                 obind (applies starting_force target (S iteration) rest (fst (fst o))) (fun o' => Ok (fst o', snd o ++ snd o')))
  end.
