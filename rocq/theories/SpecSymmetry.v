(** Symmetries of a stencil: isometries that map its directions to its directions. *)
From Verif Require Import Prelude ModelStencils ModelConfigNames ModelEquilibria ModelCollision SpecSetup.
Open Scope R_scope.

(** The image of the vector [u] of dimension [D] under the matrix [A]. *)
Definition turned (D : nat) (A : nat -> nat -> R) (u : nat -> R) (a : nat) : R := sumf D (fun b => A a b * u b).

(** [A] is a rotation or a mirror image (its columns are orthonormal) that takes direction
    [i] to direction [pi i], which has the same weight. *)
Record symmetry (st : stencil) (A : nat -> nat -> R) (pi : nat -> nat) : Prop := {
  sy_isometry : forall a b, (a < st_D st)%nat -> (b < st_D st)%nat -> sumf (st_D st) (fun c => A c a * A c b) = delta a b;
  sy_range : forall i, (i < st_Q st)%nat -> (pi i < st_Q st)%nat;
  sy_injective : forall i j, (i < st_Q st)%nat -> (j < st_Q st)%nat -> pi i = pi j -> i = j;
  sy_direction : forall i a, (i < st_Q st)%nat -> (a < st_D st)%nat -> st_e st (pi i) a = turned (st_D st) A (st_e st i) a;
  sy_weight : forall i, (i < st_Q st)%nat -> st_w st (pi i) = st_w st i
}.

(** [f'] are the populations [f] seen in the turned frame, [u'] the vector [u]. *)
Definition turned_populations (st : stencil) (pi : nat -> nat) (f f' : nat -> R) : Prop :=
  forall i, (i < st_Q st)%nat -> f' (pi i) = f i.
Definition turned_vector (st : stencil) (A : nat -> nat -> R) (u u' : nat -> R) : Prop :=
  forall a, (a < st_D st)%nat -> u' a = turned (st_D st) A u a.
Definition turned_force (st : stencil) (A : nat -> nat -> R) (F F' : option (nat -> R)) : Prop :=
  match F, F' with
  | None, None => True
  | Some G, Some G' => turned_vector st A G G'
  | _, _ => False
  end.

(** Two executions end in the same way, with results in relation [P]. *)
Definition same_outcome {X Y} (P : X -> Y -> Prop) (x : outcome X) (y : outcome Y) : Prop :=
  match x, y with
  | Ok a, Ok b => P a b
  | Throw, Throw => True
  | UB, UB => True
  | _, _ => False
  end.

(** What one collision leaves at a node, seen in the turned frame. *)
Definition turned_node (st : stencil) (A : nat -> nat -> R) (pi : nat -> nat) (o o' : node_out) : Prop :=
  turned_populations st pi (no_f o) (no_f o') /\ no_rho o' = no_rho o /\ turned_vector st A (no_u o) (no_u o').

(** The relaxation modes of the multiple-relaxation-time scheme that treat all axes alike. *)
Definition even_handed (k : T_collision) (t : StencilType) (cfg : collision_config) : Prop :=
  k = MultipleRelaxationTime -> mrt_accepts t (cc_mrt_basis cfg) (cc_mrt_relax cfg) = true /\ cc_mrt_relax cfg <> DELLAR_RELAX_ONLY_N.

(** The matrices that permute the axes and change the sense of some: axis [a] of the image
    is plus or minus axis [p a]. *)
Definition signed_permutation (D : nat) (A : nat -> nat -> R) : Prop :=
  exists p sg, (forall a, (a < D)%nat -> (p a < D)%nat) /\ (forall a b, (a < D)%nat -> (b < D)%nat -> p a = p b -> a = b) /\
    (forall a, (a < D)%nat -> sg a = 1 \/ sg a = -1) /\
    forall a b, (a < D)%nat -> (b < D)%nat -> A a b = sg a * delta (p a) b.

(** The stencils that look the same along every axis, in both senses. *)
Definition cubic (t : StencilType) : bool :=
  match t with
  | Stencil_D2Q9 | Stencil_D2Q25H | Stencil_D3Q15 | Stencil_D3Q19 | Stencil_D3Q27 | Stencil_RD3Q27 | Stencil_D3V27 | Stencil_D3Q77 => true
  | _ => false
  end.
