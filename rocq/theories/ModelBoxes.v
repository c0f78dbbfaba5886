(** What deal.II's FEValues and FEFaceValues return to SEDGMinLee.cpp:272-318 on cells that are boxes, for
    FE_DGQArbitraryNodes and quadratures of the same one-dimensional points [x] with weights [w] (n + 1 of them): the element of
    AdvectionTools.cpp:82-83 with the quadratures of AdvectionOperator.cpp:74-77.  [size c d]: edge of cell [c] in direction [d]. *)
From Verif Require Import Prelude ModelSemiLagrangian ModelSEDG ModelElements.
Local Open Scope R_scope.

(** Derivative of a Lagrange polynomial (product rule); gradient of a shape function in reference coordinates. *)
Definition dlagrange (x : nat -> R) (n i : nat) (t : R) : R :=
  sumf (S n) (fun l => (if Nat.eqb l i then 0 else / (x i - x l)) *
    prodf (S n) (fun j => if Nat.eqb j l then 1 else if Nat.eqb j i then 1 else (t - x j) / (x i - x j))).
Definition el_grad (x : nat -> R) (n D j : nat) (u : point) (k : nat) : R :=
  prodf D (fun d => if Nat.eqb d k then dlagrange x n (digit (S n) d j) (u d) else lagrange x n (digit (S n) d j) (u d)).

(** QProjector::project_to_face: the coordinates of a point of a face with normal direction [d] are the coordinates d + 1,
    d + 2, ... (modulo D) of the cell, in this order; coordinate [e] of the cell is number [slot D d e] of them. *)
Definition slot (D d e : nat) : nat := ((e + D - S d) mod D)%nat.
Definition face_unit (x : nat -> R) (n D f q : nat) : point := fun e =>
  if Nat.eqb e (f / 2) then (if Nat.even f then 0 else 1) else x (digit (S n) (slot D (f / 2) e) q).

Section Boxes.
  Context {cell : Type} (x w : nat -> R) (n D : nat) (size : cell -> nat -> R).
  Variables (points : cell -> nat -> nat -> point) (dofs : cell -> nat -> nat) (behind : cell -> nat -> side cell).
  Definition box_space : space cell :=
    mkSpace cell D (S n ^ D)%nat (S n ^ D)%nat (S n ^ (D - 1))%nat (2 * D)%nat
      (fun i q => el_shape (tensor_element x n D) i (el_node (tensor_element x n D) q))
      (fun f i q => el_shape (tensor_element x n D) i (face_unit x n D f q))
      (fun c j q k => el_grad x n D j (el_node (tensor_element x n D) q) k / size c k)
      (fun c q => prodf D (fun d => w (digit (S n) d q) * size c d))
      (fun c f q => prodf D (fun d => if Nat.eqb d (f / 2) then 1 else w (digit (S n) (slot D (f / 2) d) q) * size c d))
      (fun c f q k => if Nat.eqb k (f / 2) then (if Nat.even f then - 1 else 1) else 0)
      points
      (fun i f => Nat.eqb (digit (S n) (f / 2) i) (if Nat.even f then 0 else n)%nat)
      dofs behind.
End Boxes.
