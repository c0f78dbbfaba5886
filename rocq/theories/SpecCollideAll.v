(** Vocabulary for the collision of many nodes on many ranks. *)
From Verif Require Import Prelude ModelStencils ModelConfigNames ModelEquilibria ModelCollision.
Open Scope R_scope.

Section All.
  Variables (k : T_collision) (q : T_equilibrium) (gd : genData) (init : bool).

  (** Node [n] of [s'] holds the result of the single-node collision of node [n] of [s]. *)
  Definition node_done (s s' : fields) (n : nat) : Prop :=
    exists o, collide_node k q gd init (fl_f s n) (fl_u s n) = Ok o /\
              fl_f s' n = no_f o /\ fl_rho s' n = no_rho o /\ fl_u s' n = no_u o.
  (** Node [n] is untouched. *)
  Definition node_kept (s s' : fields) (n : nat) : Prop :=
    fl_f s' n = fl_f s n /\ fl_rho s' n = fl_rho s n /\ fl_u s' n = fl_u s n.
  (** Every listed node passes the density checks. *)
  Definition all_dense (nodes : list nat) (s : fields) : Prop :=
    forall n, In n nodes -> exists o, collide_node k q gd init (fl_f s n) (fl_u s n) = Ok o /\ 1 / 10^10 < no_rho o.
  (** ranks, each owning a list of nodes, working on their own nodes one after the other *)
  Fixpoint run_ranks (ranks : list (list nat)) (s : fields) : outcome fields :=
    match ranks with
    | [] => Ok s
    | r :: rest => obind (collideAll k q gd init r s) (run_ranks rest)
    end.
End All.

Definition same_fields (s s' : fields) : Prop := forall n,
  fl_f s n = fl_f s' n /\ fl_rho s n = fl_rho s' n /\ fl_u s n = fl_u s' n.
