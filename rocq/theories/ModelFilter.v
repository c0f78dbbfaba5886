(** smoothing/ExponentialFilter.{h,cpp} and smoothing/NewFilter.{h,cpp}.

    Parameters: the one-dimensional Legendre polynomials [leg] (dealii::Polynomials::Legendre),
    the shape functions [shape] of the finite element, the quadrature ([nq] points [qp] with
    weights [qw]) and FullMatrix::invert [inv].  Points are functions from component to
    coordinate. *)
From Verif Require Import Prelude.
Local Open Scope R_scope.

Definition point := nat -> R.
Definition matrix := nat -> nat -> R.

(** pow(m_sourceFE.degree + 1, dim): the number of modes. *)
Definition modes (dim p : nat) : nat := Nat.pow (p + 1) dim.

(** ExponentialFilter.cpp:70-93, NewFilter.cpp:70-93 evaluateLegendreND for dim = 1, 2, 3. *)
Definition evaluateLegendreND (leg : nat -> R -> R) (dim p i : nat) (x : point) : R :=
  match dim with
  | 1%nat => leg i (x 0%nat)
  | 2%nat => leg (i / (p + 1))%nat (x 0%nat) * leg (i mod (p + 1))%nat (x 1%nat)
  | _ => leg (i / ((p + 1) * (p + 1)))%nat (x 0%nat)
         * leg ((i mod ((p + 1) * (p + 1))) / (p + 1))%nat (x 1%nat)
         * leg (i mod (p + 1))%nat (x 2%nat)
  end.

(** ExponentialFilter.cpp:95-136 makeDegreeVectors: (m_degreeMax(i), m_degreeSum(i)).  In three
    dimensions the source has iy = ( i % (p+1) * (p+1) ) / (p + 1), where the modulo binds as
    tightly as the product and to the left. *)
Definition degrees (dim p i : nat) : nat * nat :=
  match dim with
  | 1%nat => (i, i)
  | 2%nat => let ix := (i / (p + 1))%nat in let iy := (i mod (p + 1))%nat in
             (if Nat.ltb ix iy then iy else ix, (ix + iy)%nat)
  | _ => let ix := (i / ((p + 1) * (p + 1)))%nat in
         let iy := ((i mod (p + 1)) * (p + 1) / (p + 1))%nat in
         let m := if Nat.ltb ix iy then iy else ix in
         let iz := (i mod (p + 1))%nat in
         (if Nat.ltb m iz then iz else m, (ix + iy + iz)%nat)
  end.

(** NewFilter.cpp:95-136 makeDegreeVectors, m_degreeSum(i) (m_degreeMax is not used). *)
Definition new_degree (dim p i : nat) : nat :=
  match dim with
  | 1%nat => i
  | 2%nat => ((i / (p + 1)) + (i mod (p + 1)))%nat
  | _ => ((i / ((p + 1) * (p + 1))) + (i / (p + 1)) + (i mod (p + 1)))%nat
  end.

Section Cell.
  Variables (leg : nat -> R -> R) (shape : nat -> point -> R) (nq : nat) (qp : nat -> point) (qw : nat -> R)
            (inv : nat -> matrix -> matrix).

  (** ExponentialFilter.cpp:29-68, NewFilter.cpp:29-68 makeProjectionMatrices. *)
  Definition quad_source (dim p : nat) : matrix := fun k i =>
    sumf nq (fun q => qw q * shape i (qp q) * evaluateLegendreND leg dim p k (qp q)).
  Definition quad_legendre (dim p : nat) : matrix := fun k i =>
    sumf nq (fun q => qw q * evaluateLegendreND leg dim p i (qp q) * evaluateLegendreND leg dim p k (qp q)).
  Definition mmult (n : nat) (X Y : matrix) : matrix := fun i j => sumf n (fun k => X i k * Y k j).
  Definition to_legendre (dim p : nat) : matrix :=
    mmult (modes dim p) (inv (modes dim p) (quad_legendre dim p)) (quad_source dim p).
  Definition from_legendre (dim p : nat) : matrix := inv (modes dim p) (to_legendre dim p).
  Definition mvmult (n : nat) (X : matrix) (v : nat -> R) : nat -> R := fun i => sumf n (fun j => X i j * v j).

  (** ExponentialFilter.cpp:148-150,160-187: the filter on the values of one cell.  The power
      is taken of a positive number: degree >= Nc. *)
  Definition exp_cell (alpha s : R) (Nc : nat) (by_sum : bool) (dim p : nat) (f : nat -> R) : nat -> R :=
    let n := modes dim p in
    let max_degree := if by_sum then (dim * p)%nat else p in
    let legendre := mvmult n (to_legendre dim p) f in
    let filtered := fun i =>
      let degree := if by_sum then snd (degrees dim p i) else fst (degrees dim p i) in
      if Nat.leb Nc degree
      then exp (- alpha * Rpower ((INR degree + 1 - INR Nc) / (INR max_degree + 1 - INR Nc)) s) * legendre i
      else legendre i in
    mvmult n (from_legendre dim p) filtered.

  (** pow(x, s) for x >= 0; the infinite result for x = 0 and s < 0 is [None]. *)
  Definition pow_opt (x s : R) : option R :=
    if Req_EM_T x 0 then (if Rlt_dec 0 s then Some 0 else if Req_EM_T s 0 then Some 1 else None)
    else Some (Rpower x s).

  (** NewFilter.cpp:148,158-174: the filter on the values of one cell; [None] if a damping factor is
      not a finite number (p = 0: zero divided by zero; s < 0). *)
  Definition new_sigma (alpha s : R) (dim p i : nat) : option R :=
    if Nat.eqb (dim * p) 0 then None
    else option_map (fun v => exp (- alpha * v)) (pow_opt (INR (new_degree dim p i) / INR (dim * p)) s).
  Definition new_cell (alpha s : R) (dim p : nat) (f : nat -> R) : option (nat -> R) :=
    let n := modes dim p in
    let legendre := mvmult n (to_legendre dim p) f in
    if forallb (fun i => match new_sigma alpha s dim p i with Some _ => true | None => false end) (List.seq 0 n)
    then Some (mvmult n (from_legendre dim p)
                 (fun i => match new_sigma alpha s dim p i with Some v => v * legendre i | None => 0 end))
    else None.
End Cell.

(** ExponentialFilter.cpp:138-193, NewFilter.cpp:138-180 applyFilter: one cell after the other,
    a cell given by its list of global dof indices. *)
Definition write (dofs : list nat) (v : nat -> R) (x : nat -> R) : nat -> R :=
  fold_left (fun x k => fun d => if Nat.eqb d (nth k dofs 0%nat) then v k else x d) (List.seq 0 (length dofs)) x.
Definition applyFilter (cell_filter : (nat -> R) -> nat -> R) (cells : list (list nat)) (x : nat -> R) : nat -> R :=
  fold_left (fun x dofs => write dofs (cell_filter (fun k => x (nth k dofs 0%nat))) x) cells x.
