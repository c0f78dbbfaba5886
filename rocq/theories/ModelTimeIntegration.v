(** timeintegration/ of NATriuM: TimeIntegrator.h, RungeKutta5LowStorage.{h,cpp},
    ThetaMethod.cpp, ExponentialTimeIntegrator.cpp, DealIIWrapper.cpp; the branch of
    CFDSolver::stream for discontinuous Galerkin advection; smoothing/VmultLimiter.cpp.

    Vectors are functions on indices below the problem size [n]; block vectors and block
    matrices are flattened; sparse matrices are dense.  A failed assertion is [Throw]. *)
From Verif Require Import Prelude.
Local Open Scope R_scope.

Definition vec := nat -> R.
Definition mat := nat -> nat -> R.

(** MATRIX::vmult and the vector operations [x += y], [x *= c] (deal.II). *)
Definition vmult (n : nat) (A : mat) (x : vec) : vec := fun i => sumf n (fun j => A i j * x j).
Definition vadd (x y : vec) : vec := fun i => x i + y i.
Definition vscale (c : R) (x : vec) : vec := fun i => x i * c.
Definition vdiv (c : R) (x : vec) : vec := fun i => x i / c.
Definition l2_norm (n : nat) (x : vec) : R := sqrt (sumf n (fun i => x i * x i)).

(** TimeIntegrator.h:43-46 setTimeStepSize. *)
Definition setTimeStepSize (x : R) : outcome R := if Rlt_dec 0 x then Ok x else Throw.

(** The first statement of every step function (RungeKutta5LowStorage.cpp:63-68,
    ThetaMethod.cpp:69-74, 125-130, 185-190, 256-261, ExponentialTimeIntegrator.cpp:77-82):
    the new stored time step size and the value of the variable dt. *)
Definition resolve_dt (stored dt : R) : outcome (R * R) :=
  if Req_EM_T dt 0 then Ok (stored, stored)
  else if Req_EM_T dt stored then Ok (stored, dt)
  else obind (setTimeStepSize dt) (fun s => Ok (s, dt)).

(** Result of a step: stored time step size, vector, returned time. *)
Record stepped (V : Type) := mkStepped { sp_dt : R; sp_f : V; sp_t : R }.
Arguments mkStepped {V}. Arguments sp_dt {V}. Arguments sp_f {V}. Arguments sp_t {V}.

(** *** RungeKutta5LowStorage *)

(** RungeKutta5LowStorage.h:29-34 makeA and :35-40 makeB. *)
Definition rk_a (i : nat) : R :=
  nth i [0; -567301805773/1357537059087; -2404267990393/2016746695238;
         -3550918686646/2091501179385; -1275806237668/842570457699] 0.
Definition rk_b (i : nat) : R :=
  nth i [1432997174477/9575080441755; 5161836677717/13612068292357; 1720146321549/2090206949498;
         3134564353537/4481467310338; 2277821191437/14882151754819] 0.

(** RungeKutta5LowStorage.cpp:77-87: the first stage, on (f, df). *)
Definition rk_first (n : nat) (A : mat) (b : vec) (h : R) (f : vec) : vec * vec :=
  let Af := vscale h (vadd (vmult n A f) b) in
  let df := vscale (rk_b 0) Af in
  (vadd f df, vdiv (rk_b 0) df).

(** RungeKutta5LowStorage.cpp:88-101: the loop body. *)
Definition rk_stage (n : nat) (A : mat) (b : vec) (h : R) (i : nat) (s : vec * vec) : vec * vec :=
  let (f, df) := s in
  let Af := vscale h (vadd (vmult n A f) b) in
  let df1 := vscale (rk_b i) (vadd (vscale (rk_a i) df) Af) in
  (vadd f df1, vdiv (rk_b i) df1).

Fixpoint rk_loop (n : nat) (A : mat) (b : vec) (h : R) (todo i : nat) (s : vec * vec) : vec * vec :=
  match todo with
  | O => s
  | S k => rk_loop n A b h k (S i) (rk_stage n A b h i s)
  end.

(** RungeKutta5LowStorage.cpp:56-105 step.  [stored] is m_timeStepSize. *)
Definition rk5_step (n : nat) (stored : R) (f : vec) (A : mat) (b : vec) (t dt : R)
  : outcome (stepped vec) :=
  obind (resolve_dt stored dt) (fun r =>
    let (h, dt) := r in
    Ok (mkStepped h (fst (rk_loop n A b h 4 1 (rk_first n A b h f))) (t + dt))).

(** *** ThetaMethod *)

(** ThetaMethod.cpp:61-115 step (the other three instances, :117-174, :176-246, :248-315, do
    the same for other vector types).  [solve M x0 r] is SolverBicgstab::solve with start
    vector [x0]: the vector it leaves in f, or the exception when it does not converge. *)
Definition theta_step (solve : mat -> vec -> vec -> outcome vec) (theta : R)
    (n : nat) (stored : R) (f : vec) (A : mat) (b : vec) (t dt : R) : outcome (stepped vec) :=
  obind (resolve_dt stored dt) (fun r =>
    let (h, dt) := r in
    let tmpVector := vscale h b in
    let tmpMatrix := fun i j => A i j * h in
    let tmpVector := vadd tmpVector (vmult n tmpMatrix f) in
    let tmpMatrix := fun i j => tmpMatrix i j * (- theta) + delta i j in
    let tmpVector := vadd tmpVector (vmult n tmpMatrix f) in
    obind (solve tmpMatrix f tmpVector) (fun f1 => Ok (mkStepped h f1 (t + dt)))).

(** *** ExponentialTimeIntegrator *)

(** Floating point numbers as far as this class needs them: a real number, or [None] for a
    result that is not a number.  Not-a-number is absorbed by the four operations. *)
Definition fl := option R.
Definition fl2 (op : R -> R -> R) (x y : fl) : fl :=
  match x, y with Some a, Some b => Some (op a b) | _, _ => None end.
Definition fadd := fl2 Rplus.
Definition fsub := fl2 Rminus.
Definition fmul := fl2 Rmult.
Definition fdiv (x y : fl) : fl :=
  match x, y with
  | Some a, Some b => if Req_EM_T b 0 then None else Some (a / b)
  | _, _ => None
  end.
Fixpoint fsum (n : nat) (f : nat -> fl) : fl :=
  match n with O => Some 0 | S k => fadd (fsum k f) (f k) end.
Definition fsqrt (x : fl) : fl := option_map sqrt x.
Definition fvec := nat -> fl.
Definition fdot (n : nat) (x y : fvec) : fl := fsum n (fun i => fmul (x i) (y i)).
Definition fnorm (n : nat) (x : fvec) : fl := fsqrt (fdot n x x).
Definition fvmult (n : nat) (A : mat) (x : fvec) : fvec := fun i => fsum n (fun j => fmul (Some (A i j)) (x j)).

(** ExponentialTimeIntegrator.h:12 arnoldiSize. *)
Definition arnoldiSize : nat := 6.

(** m_V as its list of columns (column j of the list, zero after m_V.reinit, :106), m_H as a
    function of row and column. *)
Definition fmat := nat -> nat -> fl.
Definition set_entry (H : fmat) (i j : nat) (x : fl) : fmat :=
  fun k l => if andb (Nat.eqb k i) (Nat.eqb l j) then x else H k l.
Definition set_col (V : nat -> fvec) (j : nat) (x : fvec) : nat -> fvec :=
  fun k => if Nat.eqb k j then x else V k.

(** ExponentialTimeIntegrator.cpp:129-137: orthogonalisation against column i. *)
Definition arnoldi_inner (n : nat) (V : nat -> fvec) (j i : nat) (s : fvec * fmat) : fvec * fmat :=
  let (w, H) := s in
  let h := fdot n w (V i) in
  (fun k => fsub (w k) (fmul (V i k) h), set_entry H i j h).

Fixpoint iterate_upto {S : Type} (n : nat) (g : nat -> S -> S) (s : S) : S :=
  match n with O => s | Datatypes.S k => g k (iterate_upto k g s) end.

(** m_H(j+1,j) != 0 (true for not-a-number). *)
Definition fl_nonzero (x : fl) : bool :=
  match x with Some a => if Req_EM_T a 0 then false else true | None => true end.

(** ExponentialTimeIntegrator.cpp:120-150: one pass of the Arnoldi loop. *)
Definition arnoldi_step (n : nat) (A : mat) (j : nat) (s : (nat -> fvec) * fmat) : (nat -> fvec) * fmat :=
  let (V, H) := s in
  let w := fvmult n A (V j) in
  let (w, H) := iterate_upto (S j) (arnoldi_inner n V j) (w, H) in
  let h := fnorm n w in
  let H := set_entry H (S j) j h in
  let V := if fl_nonzero h then set_col V (S j) (fun k => fdiv (w k) h) else V in
  (V, set_entry H (S arnoldiSize) arnoldiSize (Some 1)).

(** FullMatrix::mmult, add and the identity for matrices of size arnoldiSize. *)
Definition fmmult (X Y : fmat) : fmat := fun i j => fsum arnoldiSize (fun k => fmul (X i k) (Y k j)).
Definition fsub_id (X : fmat) : fmat := fun i j => fsub (X i j) (Some (delta i j)).

(** ExponentialTimeIntegrator.cpp:310-334 phiFunction.  [pade] is padeApproximation (:250-308)
    and [inverse] is FullMatrix::gauss_jordan. *)
Definition phiFunction (pade inverse : fmat -> fmat) (h : R) (Hm : fmat) : fmat * fmat :=
  let phiOne := fun i j => fmul (Hm i j) (Some h) in
  let exponential := fsub_id (pade phiOne) in
  let inv := inverse phiOne in
  let phiOne := fmmult exponential inv in
  (phiOne, fmmult (fsub_id phiOne) inv).

(** ExponentialTimeIntegrator.cpp:96-189: the new f for a step of size [h]. *)
Definition exp_core (pade inverse : fmat -> fmat) (n : nat) (h : R) (f : fvec) (A : mat) (b : vec) : fvec :=
  let H := fun _ _ => Some 0 in
  let V := fun _ _ => Some 0 in
  let w := fun i => fadd (fvmult n A f i) (Some (b i)) in
  let beta := fnorm n w in
  let V := set_col V 0 (fun i => fdiv (w i) beta) in
  let (V, H) := iterate_upto arnoldiSize (arnoldi_step n A) (V, H) in
  let (phiOne, phiTwo) := phiFunction pade inverse h H in
  let firstColumn := fun i =>
    if Nat.ltb i arnoldiSize then phiOne i 0%nat
    else fmul (fmul (H arnoldiSize (arnoldiSize - 1)%nat) (Some h)) (phiTwo (arnoldiSize - 1)%nat 0%nat) in
  fun i => fadd (f i) (fmul (fsum (S arnoldiSize) (fun j => fmul (V j i) (firstColumn j)))
                            (fmul (Some h) beta)).

(** ExponentialTimeIntegrator.cpp:63-198 step.  (The variable dt of :187 and
    getTimeStepSize() of :174, 317 have the same value after :77-82.) *)
Definition exp_step (pade inverse : fmat -> fmat) (n : nat) (stored : R) (f : fvec) (A : mat)
    (b : vec) (t dt : R) : outcome (stepped fvec) :=
  obind (resolve_dt stored dt) (fun r =>
    let (h, dt) := r in Ok (mkStepped h (exp_core pade inverse n h f A b) (t + dt))).

(** *** DealIIWrapper *)

(** ConfigNames.h:82-96 DealIntegratorName as its number, ConfigNames.h:98-100 DealSolverName
    as its number.  DealIIWrapper.cpp:610-637 step: the whole body is a comment, so a function
    with return type double runs off its end. *)
Definition deal_step (rk solver n : nat) (stored : R) (f : vec) (A : mat) (b : vec) (t dt : R)
  : outcome (stepped vec) := UB.

(** *** VmultLimiter *)

(** VmultLimiter.cpp:15-28 (one call per block) and :29-85 (the body is a comment). *)
Definition vmult_limiter (n : nat) (A : mat) (target source : vec) : vec := target.

(** *** CFDSolver *)

(** CFDSolver.cpp:402-445: which time integrator is built; [None] leaves the pointer empty
    (an unhandled enumerator, or OTHER together with NONE).  TimeIntegratorName is
    ConfigNames.h:78-80. *)
Inductive time_integrator_name := RUNGE_KUTTA_5STAGE | THETA_METHOD | EXPONENTIAL | OTHER.
Inductive integrator :=
| IntRK5 | IntTheta | IntExponential | IntDeal (rk : nat) | IntDealEmbedded (rk : nat).
Definition build_integrator (name : time_integrator_name) (deal : nat) : option integrator :=
  match name with
  | RUNGE_KUTTA_5STAGE => Some IntRK5
  | THETA_METHOD => Some IntTheta
  | EXPONENTIAL => Some IntExponential
  | OTHER => if Nat.ltb deal 7 then Some (IntDeal deal)
             else if Nat.ltb deal 12 then Some (IntDealEmbedded deal) else None
  end.

(** The state that CFDSolver::stream changes. *)
Record sedg := mkSedg { sg_f : vec; sg_formerF : vec; sg_formerFEq : vec; sg_dt : R; sg_time : R }.

(** CFDSolver.cpp:723-749: streaming with the discontinuous Galerkin scheme.  [step] is the
    time integrator's step, [former] says whether the multistep data take part (:729-731). *)
Definition sedg_stream
    (step : R -> vec -> mat -> vec -> R -> R -> outcome (stepped vec))
    (former : bool) (A : mat) (b : vec) (s : sedg) : outcome sedg :=
  obind (step (sg_dt s) (sg_f s) A b 0 (sg_dt s)) (fun r =>
    let new_dt := sp_t r in
    obind (if former
           then obind (step (sp_dt r) (sg_formerF s) A b 0 (sp_dt r)) (fun r2 =>
                obind (step (sp_dt r2) (sg_formerFEq s) A b 0 (sp_dt r2)) (fun r3 =>
                Ok (sp_f r2, sp_f r3)))
           else Ok (sg_formerF s, sg_formerFEq s)) (fun q =>
    obind (setTimeStepSize new_dt) (fun h =>
    Ok (mkSedg (sp_f r) (fst q) (snd q) h (sg_time s + new_dt))))).

(** [m] streaming steps in a row, one per iteration of CFDSolver::run (the collisions between
    them are the subject of ModelCollision).  [former k]: whether step k takes the multistep data. *)
Fixpoint stream_times (step : R -> vec -> mat -> vec -> R -> R -> outcome (stepped vec))
    (former : nat -> bool) (A : mat) (b : vec) (m : nat) (s : sedg) : outcome sedg :=
  match m with
  | O => Ok s
  | S k => obind (stream_times step former A b k s) (sedg_stream step (former k) A b)
  end.
