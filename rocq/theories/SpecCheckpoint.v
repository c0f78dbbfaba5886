(** Histories of checkpoint requests. *)
From Verif Require Import Prelude ModelStencils ModelConfigNames ModelCollision ModelRun ModelCheckpoint.
Open Scope R_scope.

Section History.
  Context {D : Type}.

  (** A request to save iteration, status and data. *)
  Definition request := (nat * status * D)%type.
  Definition iteration_of (r : request) : nat := fst (fst r).

  (** The requests are carried out one after the other, the first of the list first. *)
  Fixpoint saves (h : list request) (dir : directory D) : outcome (directory D) :=
    match h with
    | [] => Ok dir
    | (n, st, d) :: h' => obind (save n st d dir) (saves h')
    end.

  (** The request most recently made for iteration [n]. *)
  Definition latest (n : nat) (h : list request) (st : status) (d : D) : Prop :=
    exists h1 h2, h = h1 ++ (n, st, d) :: h2 /\ forall r, In r h2 -> iteration_of r <> n.

  (** A status after printing and reading. *)
  Definition printed (st : status) : status :=
    {| cs_time := print_read (cs_time st); cs_iteration := cs_iteration st;
       cs_scaling := print_read (cs_scaling st); cs_order := cs_order st |}.
End History.
Arguments request : clear implicits.

(** Stencils for which a restart gets through. *)
Definition restartable (t : StencilType) : bool :=
  match t with
  | Stencil_D3Q77 | Stencil_D2Q19V | Stencil_D2Q19H | Stencil_D2Q777 => false
  | _ => true
  end.
