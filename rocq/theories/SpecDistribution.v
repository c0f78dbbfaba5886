(** Specifications for ghosted and owned populations. *)
From Verif Require Import Prelude ModelDistribution.
Local Open Scope R_scope.

(** Every process reads through the ghosted view, at its relevant degrees of freedom (discontinuous
    Galerkin: its own), the value of the owner. *)
Definition consistent (s : distributions) : Prop :=
  forall p i j, (i < m_Q s)%nat -> dofs_in (m_layout s) j = true ->
    (if m_dg s then owner (m_layout s) j = p else relevant (m_layout s) p j = true) ->
    exists v, readGhosted s p i j = Ok v /\ read s (owner (m_layout s) j) i j = Ok v.
(** Operations after which the ghosted vectors have to be updated by hand: direct assignment to an
    entry (documented in DistributionFunctions.h:269-275) and setF0. *)
Definition needs_update (o : operation) : bool := match o with Write _ _ _ | SetF0 _ => true | _ => false end.
(** Operations that bring the ghosted vectors up to date. *)
Definition updates (o : operation) : bool :=
  match o with
  | Reinit _ _ _ | ReinitDG _ _ | Compress | Assign _ | ScaleF _ _ | Transfer false _ _ | UpdateGhosted => true
  | _ => false
  end.
(** Every operation that needs an update is followed by one that updates. *)
Fixpoint updated_in_the_end (os : list operation) : Prop :=
  match os with
  | [] => True
  | o :: r => (needs_update o = true -> existsb updates r = true) /\ updated_in_the_end r
  end.
(** Same distribution among the processes. *)
Definition same_layout (s t : distributions) : Prop :=
  forall p j, owned s p j = owned t p j.
