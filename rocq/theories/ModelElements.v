(** Model of the finite elements and the mapping of the advection operators: advection/AdvectionTools.cpp and
    advection/AdvectionOperator.cpp:43-86.  Of deal.II: the one-dimensional point sets, Lagrange polynomials, their tensor
    products, and the mappings Q1 and Cartesian of the vertices of a cell.  The Gauss-Lobatto points are a parameter
    (index: number of points, number of the point). *)
From Verif Require Import Prelude ModelSemiLagrangian ModelBenchmarks ModelTurbChannel.
Local Open Scope R_scope.

(** utilities/ConfigNames.h:134-140. *)
Inductive support_name := GaussLobattoPoints | GaussChebyshevPoints | GaussLobattoChebyshevPoints | EquidistantPoints.
Inductive quadrature_name := QGaussLobatto | QGauss.

(** Polynomials::generate_complete_Lagrange_basis: polynomial [i] of the points [x 0], ..., [x n]. *)
Definition lagrange (x : nat -> R) (n i : nat) (t : R) : R :=
  prodf (S n) (fun j => if Nat.eqb j i then 1 else (t - x j) / (x i - x j)).

(** Digit [d] of [k] in base [m]: position in direction [d] of number [k] of a lexicographic numbering.  (FE_Q numbers
    vertices before lines before quads; the order of the shape functions within a cell is of no importance here.) *)
Definition digit (m d k : nat) : nat := ((k / m ^ d) mod m)%nat.

(** TensorProductPolynomials, get_unit_support_points, dofs_per_cell. *)
Record element := { el_dofs : nat; el_node : nat -> point; el_shape : nat -> point -> R }.
Definition tensor_element (x : nat -> R) (n D : nat) : element :=
  {| el_dofs := (S n ^ D)%nat;
     el_node := fun k d => x (digit (S n) d k);
     el_shape := fun k u => prodf D (fun d => lagrange x n (digit (S n) d k) (u d)) |}.

Section Elements.
  Variable lobatto : nat -> nat -> R.

  (** AdvectionTools.cpp:52-80.  QGaussChebyshev<1>(n): 1/2 (1 + cos(pi (1 + (2 i + 1) / (2 (n - 1) + 2)))),
      QGaussLobattoChebyshev<1>(n): 1/2 (1 + cos(pi (1 + i / (n - 1)))). *)
  Definition support_points (name : support_name) (order : nat) (i : nat) : R :=
    match name with
    | GaussLobattoPoints => lobatto (order + 1)%nat i
    | GaussChebyshevPoints => 1 / 2 * (1 + cos (PI * (1 + INR (2 * i + 1) / INR (2 * order + 2))))
    | GaussLobattoChebyshevPoints => 1 / 2 * (1 + cos (PI * (1 + INR i / INR order)))
    | EquidistantPoints => INR i / INR order
    end.

  (** AdvectionTools.cpp:82-93: FE_DGQArbitraryNodes takes any points; FE_Q asserts that the first is 0 and the last 1. *)
  Definition make_fe_by_name (name : support_name) (order : nat) (dg : bool) (D : nat) : outcome element :=
    let x := support_points name order in
    if dg then Ok (tensor_element x order D)
    else if Req_EM_T (x 0%nat) 0 then if Req_EM_T (x order) 1 then Ok (tensor_element x order D) else Throw else Throw.

  (** AdvectionOperator.cpp:51-86, with the stencil of the dimension of the problem; SEDGMinLee.cpp:38-57 (dg) and
      SemiLagrangian.cpp:38-51. *)
  Definition operator_element (q : quadrature_name) (name : support_name) (order : nat) (delta_t : R) (dg : bool) (D : nat) : outcome element :=
    if Nat.leb 1 order then if Rle_dec 0 delta_t then if Nat.ltb 1 D then if Nat.ltb D 4 then
      obind (make_fe_by_name name order dg D) (fun el =>
      if dg then match q, name with QGaussLobatto, GaussLobattoPoints => Ok el | _, _ => Throw end else Ok el)
    else Throw else Throw else Throw else Throw.
End Elements.

(** ** Mappings *)

(** MappingQ1: multilinear in the vertices; vertex [k] of the reference cell is at the digits of [k] in base 2. *)
Definition mapping_q1 (D : nat) (vertex : nat -> point) (u : point) : point :=
  fun i => sumf (2 ^ D)%nat (fun k => prodf D (fun d => if Nat.eqb (digit 2 d k) 0 then 1 - u d else u d) * vertex k i).
(** MappingCartesian: vertex 0 and the edges to the vertices 1, 2 and 4. *)
Definition mapping_cartesian (vertex : nat -> point) (u : point) : point :=
  fun i => vertex 0%nat i + u i * (vertex (2 ^ i)%nat i - vertex 0%nat i).
(** AdvectionOperator.cpp:59-62. *)
Definition mapping (is_cartesian dg : bool) (D : nat) (vertex : nat -> point) : point -> point :=
  if is_cartesian && negb dg then mapping_cartesian vertex else mapping_q1 D vertex.

(** GridTools::transform is applied to the vertices; before that the cells are boxes with corner [a] and edges [h]. *)
Definition box_vertex (a h : point) (k : nat) : point := fun i => a i + INR (digit 2 i k) * h i.

(** examples/step-12/ShockVortexInteraction.h:110-116. *)
Definition vortex_trans (y trafo : R) : R := 30 / PI * (trafo * sin (PI / 30 * y) + PI / 30 * y).
(** examples/step-0/LidDrivenCavity2D.h:78-90; the assertions a > 0, b < 1, 0 <= x <= 1. *)
Definition shifted_sine (x : R) : R := 1 / 2 * (1 + sin (PI * x - 1 / 2 * PI)).
Definition cavity_trafo (x a b : R) : outcome R :=
  if Rlt_dec 0 a then if Rlt_dec b 1 then if Rle_dec 0 x then if Rle_dec x 1 then
    Ok ((shifted_sine ((b - a) * x + a) - shifted_sine a) / (shifted_sine b - shifted_sine a))
  else Throw else Throw else Throw else Throw.
(** LidDrivenCavity2D.cpp:38, LidDrivenCavity2D.h:92-94. *)
Definition cavity_grid (p : R * R) : outcome (R * R) :=
  obind (cavity_trafo (fst p) (2 / 10) (9 / 10)) (fun X => obind (cavity_trafo (snd p) (15 / 100) (85 / 100)) (fun Y => Ok (X, Y))).

(** The problems with isCartesian() = true and a transformation of the grid: ShearLayer2D, Riemann2D, SodShockTube
    ([FShear]), ShockVortexInteraction ([FVortex]), CouetteFlow2D ([FCouette]), TurbulentChannelFlow3D ([FChannel]),
    LidDrivenCavity2D ([FCavity]); all others leave the grid as it is ([FNone]). *)
Inductive flagged := FNone | FShear (tX tY : R) | FVortex (tX tY : R) | FCouette (unstructured : bool) | FChannel (c : channel) | FCavity.
Definition on_plane2 (g : R * R -> R * R) (p : point) : point :=
  fun i => match i with O => fst (g (p 0%nat, p 1%nat)) | S O => snd (g (p 0%nat, p 1%nat)) | _ => p i end.
Definition flagged_grid (f : flagged) (p : point) : outcome point :=
  match f with
  | FNone => Ok p
  | FShear tX tY => Ok (on_plane2 (shear_grid tX tY) p)
  | FVortex tX tY => Ok (on_plane2 (fun q => (vortex_trans (fst q) tX, vortex_trans (snd q) tY)) p)
  | FCouette un => Ok (on_plane2 (couette2_grid un) p)
  | FChannel c => Ok (fun i => match transform c (p 0%nat) (p 1%nat) (p 2%nat) with (X, Y, Z) =>
      match i with O => X | S O => Y | S (S O) => Z | _ => p i end end)
  | FCavity => obind (cavity_grid (p 0%nat, p 1%nat)) (fun q => Ok (on_plane2 (fun _ => q) p))
  end.
(** The two problems with isCartesian() = false and a transformation given by a formula. *)
Definition sinus_point (height ampl wavelength : R) (p : point) : outcome point :=
  obind (sinus_grid height ampl wavelength (p 0%nat, p 1%nat)) (fun q => Ok (on_plane2 (fun _ => q) p)).
