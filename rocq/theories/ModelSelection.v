(** Model of /repo/src/library/natrium/collision_advanced/CollisionSelection.h. *)
From Verif Require Import Prelude ModelStencils ModelConfigNames ModelEquilibria ModelCollision.

(** One DEFINE_POSSIBLE_(COMPRESSIBLE_)COLLISION line: template dimensions, the
    configuration it matches, the classes it runs. *)
Record entry := mkEntry {
  en_D : nat; en_Q : nat;
  en_stencil : StencilType; en_scheme : CollisionSchemeName; en_equilibrium : EquilibriumSchemeName;
  en_coll : T_collision; en_eq : T_equilibrium
}.

(** CollisionSelection.h:85-91 (2D, incompressible). *)
Definition table_2 : list entry :=
  [mkEntry 2 9 Stencil_D2Q9 BGK_STANDARD BGK_EQUILIBRIUM BGKCollision BGKEquilibrium;
   mkEntry 2 9 Stencil_D2Q9 BGK_STANDARD QUARTIC_EQUILIBRIUM BGKCollision QuarticEquilibrium;
   mkEntry 2 9 Stencil_D2Q9 BGK_REGULARIZED BGK_EQUILIBRIUM Regularized BGKEquilibrium;
   mkEntry 2 9 Stencil_D2Q9 MRT_STANDARD BGK_EQUILIBRIUM MultipleRelaxationTime BGKEquilibrium;
   mkEntry 2 25 Stencil_D2Q25H BGK_STANDARD QUARTIC_EQUILIBRIUM BGKCollision QuarticEquilibrium;
   mkEntry 2 19 Stencil_D2Q19H BGK_STANDARD QUARTIC_EQUILIBRIUM BGKCollision QuarticEquilibrium;
   mkEntry 2 19 Stencil_D2Q19V BGK_STANDARD QUARTIC_EQUILIBRIUM BGKCollision QuarticEquilibrium].

(** CollisionSelection.h:141-149 (2D, compressible). *)
Definition table_2_compressible : list entry :=
  [mkEntry 2 25 Stencil_D2Q25H BGK_STANDARD BGK_EQUILIBRIUM BGKCollision BGKEquilibrium;
   mkEntry 2 19 Stencil_D2Q19H BGK_STANDARD BGK_EQUILIBRIUM BGKCollision BGKEquilibrium;
   mkEntry 2 25 Stencil_D2Q25H BGK_STANDARD QUARTIC_EQUILIBRIUM BGKCollision QuarticEquilibrium;
   mkEntry 2 19 Stencil_D2Q19H BGK_STANDARD QUARTIC_EQUILIBRIUM BGKCollision QuarticEquilibrium;
   mkEntry 2 19 Stencil_D2Q19V BGK_STANDARD QUARTIC_EQUILIBRIUM BGKCollision QuarticEquilibrium;
   mkEntry 2 777 Stencil_D2Q777 BGK_STANDARD QUARTIC_EQUILIBRIUM BGKCollision QuarticEquilibrium;
   mkEntry 2 25 Stencil_D2Q25H BGK_REGULARIZED BGK_EQUILIBRIUM BGKCollision BGKEquilibrium].

(** CollisionSelection.h:179-202 (3D, incompressible). *)
Definition table_3 : list entry :=
  [mkEntry 3 13 Stencil_D3Q13 BGK_STANDARD BGK_EQUILIBRIUM BGKCollision BGKEquilibrium;
   mkEntry 3 15 Stencil_D3Q15 BGK_STANDARD BGK_EQUILIBRIUM BGKCollision BGKEquilibrium;
   mkEntry 3 15 Stencil_D3Q15 BGK_REGULARIZED BGK_EQUILIBRIUM Regularized BGKEquilibrium;
   mkEntry 3 19 Stencil_D3Q19 BGK_STANDARD BGK_EQUILIBRIUM BGKCollision BGKEquilibrium;
   mkEntry 3 19 Stencil_D3Q19 BGK_REGULARIZED BGK_EQUILIBRIUM Regularized BGKEquilibrium;
   mkEntry 3 19 Stencil_D3Q19 MRT_STANDARD BGK_EQUILIBRIUM MultipleRelaxationTime BGKEquilibrium;
   mkEntry 3 21 Stencil_D3Q21 BGK_STANDARD BGK_EQUILIBRIUM BGKCollision BGKEquilibrium;
   mkEntry 3 27 Stencil_D3Q27 BGK_STANDARD BGK_EQUILIBRIUM BGKCollision BGKEquilibrium;
   mkEntry 3 27 Stencil_D3Q27 BGK_STANDARD QUARTIC_EQUILIBRIUM BGKCollision QuarticEquilibrium;
   mkEntry 3 27 Stencil_D3V27 BGK_STANDARD BGK_EQUILIBRIUM BGKCollision BGKEquilibrium;
   mkEntry 3 27 Stencil_D3V27 BGK_STANDARD QUARTIC_EQUILIBRIUM BGKCollision QuarticEquilibrium;
   mkEntry 3 27 Stencil_D3Q27 BGK_REGULARIZED BGK_EQUILIBRIUM Regularized BGKEquilibrium;
   mkEntry 3 45 Stencil_D3Q45 BGK_STANDARD BGK_EQUILIBRIUM BGKCollision BGKEquilibrium;
   mkEntry 3 45 Stencil_D3Q45 BGK_STANDARD QUARTIC_EQUILIBRIUM BGKCollision BGKEquilibrium;
   mkEntry 3 77 Stencil_D3Q77 BGK_STANDARD BGK_EQUILIBRIUM BGKCollision BGKEquilibrium;
   mkEntry 3 77 Stencil_D3Q77 BGK_STANDARD QUARTIC_EQUILIBRIUM BGKCollision BGKEquilibrium].

(** CollisionSelection.h:251-253 (3D, compressible). *)
Definition table_3_compressible : list entry :=
  [mkEntry 3 45 Stencil_D3Q45 BGK_STANDARD QUARTIC_EQUILIBRIUM BGKCollision QuarticEquilibrium;
   mkEntry 3 77 Stencil_D3Q77 BGK_STANDARD QUARTIC_EQUILIBRIUM BGKCollision QuarticEquilibrium].

(** Decidable equality of the enums (operator== of C++ enums). *)
Definition stencil_eqb (x y : StencilType) : bool :=
  match x, y with
  | Stencil_D2Q9, Stencil_D2Q9 | Stencil_D3Q19, Stencil_D3Q19 | Stencil_D3Q15, Stencil_D3Q15
  | Stencil_D3Q27, Stencil_D3Q27 | Stencil_D2Q19H, Stencil_D2Q19H | Stencil_D2Q19V, Stencil_D2Q19V
  | Stencil_D2Q777, Stencil_D2Q777 | Stencil_D2Q25H, Stencil_D2Q25H | Stencil_D3Q13, Stencil_D3Q13
  | Stencil_D3Q21, Stencil_D3Q21 | Stencil_RD3Q27, Stencil_RD3Q27 | Stencil_D3Q45, Stencil_D3Q45
  | Stencil_D3Q77, Stencil_D3Q77 | Stencil_D3V27, Stencil_D3V27 => true
  | _, _ => false
  end.
Definition scheme_eqb (x y : CollisionSchemeName) : bool :=
  match x, y with
  | BGK_STANDARD, BGK_STANDARD | BGK_STANDARD_TRANSFORMED, BGK_STANDARD_TRANSFORMED
  | BGK_STEADY_STATE, BGK_STEADY_STATE | BGK_MULTIPHASE, BGK_MULTIPHASE
  | BGK_INCOMPRESSIBLE, BGK_INCOMPRESSIBLE | MRT_STANDARD, MRT_STANDARD
  | MRT_ENTROPIC, MRT_ENTROPIC | ENTROPIC_STABILIZED, ENTROPIC_STABILIZED
  | KBC_STANDARD, KBC_STANDARD | KBC_CENTRAL, KBC_CENTRAL | BGK_MULTI_AM4, BGK_MULTI_AM4
  | BGK_MULTI_BDF2, BGK_MULTI_BDF2 | BGK_REGULARIZED, BGK_REGULARIZED => true
  | _, _ => false
  end.
Definition equilibrium_eqb (x y : EquilibriumSchemeName) : bool :=
  match x, y with
  | BGK_EQUILIBRIUM, BGK_EQUILIBRIUM | QUARTIC_EQUILIBRIUM, QUARTIC_EQUILIBRIUM
  | INCOMPRESSIBLE_EQUILIBRIUM, INCOMPRESSIBLE_EQUILIBRIUM
  | STEADYSTATE_EQUILIBRIUM, STEADYSTATE_EQUILIBRIUM
  | ENTROPIC_EQUILIBRIUM, ENTROPIC_EQUILIBRIUM => true
  | _, _ => false
  end.

(** The condition of the macro (CollisionSelection.h:27-29, 44-46). *)
Definition matches (st : StencilType) (c : CollisionSchemeName) (q : EquilibriumSchemeName) (e : entry) : bool :=
  stencil_eqb st (en_stencil e) && scheme_eqb c (en_scheme e) && equilibrium_eqb q (en_equilibrium e).

Definition table (dim : nat) (compressible : bool) : list entry :=
  match dim, compressible with
  | 2%nat, false => table_2
  | 2%nat, true => table_2_compressible
  | 3%nat, false => table_3
  | 3%nat, true => table_3_compressible
  | _, _ => []
  end.

(** selectCollision: the sequence of collision operators executed on the node
    data (one per matching line), and whether it ends with an exception.  In 2D
    and compressible 3D [has_collided] is an int counter (80-110, 135-160, 245-265);
    in 3D incompressible it is a bool (178, 227), so [> 1] is not detected. *)
Definition selectCollision (dim : nat) (compressible : bool) (st : StencilType)
    (c : CollisionSchemeName) (q : EquilibriumSchemeName) : list entry * bool :=
  let run := filter (matches st c q) (table dim compressible) in
  let n := length run in
  let counter := if (Nat.eqb dim 3 && negb compressible)%bool then Nat.min n 1 else n in
  (run, Nat.eqb counter 0 || Nat.ltb 1 counter).
