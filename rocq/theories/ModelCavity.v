(** Comparison of the lid-driven cavity with tabulated reference velocities.  Reals for doubles. *)
From Verif Require Import Prelude CavityData.
Local Open Scope R_scope.

(** A process evaluates the velocity at the points it owns; [None] is the exception ExcPointNotAvailableHere. *)
Definition evaluator := R -> R -> option R.

(** analysis/cavity-convergence/CompareToGhia.cpp:94-107, CompareToBotella.cpp:94-107, CompareToErturk.cpp: value sent to
    the maximum over the processes, with the placeholders for points not found (v: -10^9, u: -10^10). *)
Definition sent (placeholder : R) (e : evaluator) (x y : R) : R := match e x y with Some v => v | None => placeholder end.

(** dealii::Utilities::MPI::max over the processes [first :: others]. *)
Fixpoint mpi_max (first : R) (others : list R) : R :=
  match others with [] => first | a :: l => mpi_max (Rmax first a) l end.

Definition velocity_at (placeholder : R) (rank0 : evaluator) (ranks : list evaluator) (x y : R) : R :=
  mpi_max (sent placeholder rank0 x y) (map (fun e => sent placeholder e x y) ranks).

Definition placeholder_v : R := -1000000000.
Definition placeholder_u : R := -10000000000.

(** Entry of a table in units of 10^-7 (numeric_vector of given size, initialised with zeros). *)
Definition entry (t : list Z) (i : nat) : R := IZR (nth i t 0%Z) / 10000000.

(** makeReferenceU / makeReferenceV: switch over the Reynolds number; default: the vector keeps its zeros. *)
Definition reference (cases : list (Z * list Z)) (Re : Z) : list Z :=
  match find (fun c => Z.eqb (fst c) Re) cases with Some c => snd c | None => [] end.

(** What the class holds: positions and reference values ([rows] points), file lines, errors ([None]: not initialised;
    the constructors do not set them). *)
Record comparison := { rows : nat; xs : list Z; ys : list Z; ref_u : list Z; ref_v : list Z }.
Record state := { lines : list (R * R * R * R * R * R); u_error : option R; v_error : option R }.

(** CompareToGhia.cpp:17-57, CompareToBotella.cpp:17-57: constructors. *)
Definition compare_to_ghia (Re : Z) : comparison :=
  {| rows := 17; xs := ghia_x; ys := ghia_y; ref_u := reference ghia_u Re; ref_v := reference ghia_v Re |}.
Definition compare_to_botella (Re : Z) : comparison :=
  {| rows := 17; xs := botella_x; ys := botella_y; ref_u := reference botella_u Re; ref_v := reference botella_v Re |}.
Definition constructed : state := {| lines := []; u_error := None; v_error := None |}.

(** CompareToGhia.cpp:63-126, CompareToBotella.cpp:63-125 (CompareToErturk.cpp the same with 23 rows): apply. *)
Definition compare_apply (c : comparison) (iteration : nat) (u0 : evaluator) (us : list evaluator) (v0 : evaluator) (vs : list evaluator) (s : state) : state :=
  if negb (Nat.eqb (Nat.modulo iteration 1000) 0) then s
  else
    let u i := velocity_at placeholder_u u0 us (1 / 2) (entry (ys c) i) in
    let v i := velocity_at placeholder_v v0 vs (entry (xs c) i) (1 / 2) in
    {| lines := map (fun i => (entry (ys c) i, u i, entry (ref_u c) i, entry (xs c) i, v i, entry (ref_v c) i)) (seq 0 (rows c));
       u_error := Some (sqrt (sumf (rows c) (fun i => (u i - entry (ref_u c) i) * (u i - entry (ref_u c) i)) / INR (rows c)));
       v_error := Some (sqrt (sumf (rows c) (fun i => (v i - entry (ref_v c) i) * (v i - entry (ref_v c) i)) / INR (rows c))) |}.

(** CompareToGhia.h:43-49: getUError, getVError. *)
Definition getUError (s : state) : outcome R := match u_error s with Some e => Ok e | None => UB end.
Definition getVError (s : state) : outcome R := match v_error s with Some e => Ok e | None => UB end.
