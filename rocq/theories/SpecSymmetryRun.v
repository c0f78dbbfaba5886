(** Symmetries of runs on a lattice: maps of the sites that exchange and reverse axes. *)
From Verif Require Import Prelude ModelStencils ModelConfigNames ModelEquilibria ModelCollision ModelSemiLagrangian SpecSemiLagrangian SpecLattice SpecSymmetry.
Open Scope R_scope.

(** Axis [a] of the image is axis [ax a], with the factor [sz a] (1 or -1). *)
Definition axis_map (ax : nat -> nat) (sz : nat -> Z) (a b : nat) : R := IZR (sz a) * delta (ax a) b.
Definition turned_site (ax : nat -> nat) (sz : nat -> Z) (x : index) : index := fun a => (sz a * x (ax a))%Z.

(** The lattice [L'] is the lattice [L] seen in the turned frame. *)
Definition turned_lattice (st : stencil) (pi : nat -> nat) (ax : nat -> nat) (sz : nat -> Z) (L L' : lattice) : Prop :=
  forall x y, (forall a, (a < st_D st)%nat -> y a = turned_site ax sz x a) ->
    turned_populations st pi (lf L x) (lf L' y) /\ turned_vector st (axis_map ax sz) (lu L x) (lu L' y).
