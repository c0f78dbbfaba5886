(** C44 (ghosted and owned populations), C56 (comparison of populations). *)
From Verif Require Import Prelude ModelDistribution SpecDistribution ProofDistribution.
Local Open Scope R_scope.

(** ** C44: after any sequence of operations in which direct assignments and setF0 are followed by an
    operation that updates, what any process reads through the ghosted view is the value of the owner.
    Missing: setF0 itself does not update, see below. *)
Theorem C44_consistent_partial : forall dg L os s, perform_all (empty_distributions dg L) os = Ok s ->
  updated_in_the_end os -> consistent s.
Proof. exact ghost_consistent. Qed.
Print Assumptions C44_consistent_partial.
Example C44_consistent_partial_ex : exists s, perform_all (empty_distributions false two)
    [Reinit 2 two false; Write 0 1 3; SetF0 (fun j => INR j + 1); SetFStream (fun _ _ => 5); ScaleF 2 (fun _ => true)] = Ok s /\
  readGhosted s 0 0 1 = Ok 4 /\ readGhosted s 0 1 1 = Ok 10 /\ read s 0 0 1 = Throw.
Proof. exact ghost_example. Qed.
Example C44_updated_ex : updated_in_the_end
  [Reinit 2 two false; Write 0 1 3; SetF0 (fun j => INR j + 1); SetFStream (fun _ _ => 5); ScaleF 2 (fun _ => true)].
Proof. cbn. intuition discriminate. Qed.
(** What the operations do to the populations (read by their owners): scaleF multiplies every one of them, the assignment copies
    every one of them, setFStream leaves direction 0 alone. *)
Theorem C44_scaled : forall s c s', perform s (ScaleF c (dofs_in (m_layout s))) = Ok s' ->
  forall p i j, read s' p i j = obind (read s p i j) (fun v => Ok (c * v)).
Proof. exact scale_reads. Qed.
Print Assumptions C44_scaled.
Theorem C44_assigned : forall s t s', perform s (Assign t) = Ok s' -> m_layout t = m_layout s -> forall p i j, read s' p i j = read t p i j.
Proof. exact assign_reads. Qed.
Print Assumptions C44_assigned.
Theorem C44_streamed : forall s x s', perform s (SetFStream x) = Ok s' ->
  forall p i j, read s' p i j = match i with O => read s p O j | S b => obind (read s p i j) (fun _ => Ok (x b j)) end.
Proof. exact stream_reads. Qed.
Print Assumptions C44_streamed.
(** Discontinuous Galerkin: always. *)
Theorem C44_dg : forall os s s', perform_all s os = Ok s' -> m_dg s = true -> (forall Q L, ~ In (Reinit Q L false) os) -> consistent s'.
Proof. exact dg_always. Qed.
Print Assumptions C44_dg.
Example C44_dg_ex : exists s', perform_all (empty_distributions true two) [ReinitDG 2 two; SetF0 (fun j => INR j + 1)] = Ok s' /\
  readGhosted s' 1 0 1 = Ok (INR 1 + 1).
Proof. eexists. split; [reflexivity|]. reflexivity. Qed.
(** setF0 does not update the ghosted vector (setFStream does). *)
Theorem C44_setF0_refuted : exists s, perform_all (empty_distributions false two) [Reinit 2 two false; SetF0 (fun j => INR j + 1)] = Ok s /\
  read s 1 0 1 = Ok 2 /\ readGhosted s 1 0 1 = Ok 0.
Proof. exact setF0_stale. Qed.
Print Assumptions C44_setF0_refuted.

(** ** C56 *)
(** For the same distribution among processes, equals compares all entries, and is symmetric. *)
Theorem C56_equals_decides : forall s t th n procs, (0 < procs)%nat -> same_layout s t ->
  (forall j, (j < n)%nat -> exists p, (p < procs)%nat /\ owned s p j = true) ->
  (equals s t th n procs = true <->
   m_Q s = m_Q t /\ forall i j, (i < m_Q s)%nat -> (j < n)%nat -> Rabs (component s i j - component t i j) <= th).
Proof. exact equals_decides. Qed.
Print Assumptions C56_equals_decides.
Theorem C56_equals_symmetric_partial : forall s t th n procs, same_layout s t -> equals s t th n procs = equals t s th n procs.
Proof. exact equals_symmetric. Qed.
Print Assumptions C56_equals_symmetric_partial.
Example C56_equals_ex : same_layout (ones two_dofs) (ones two_dofs) /\
  (forall j, (j < 2)%nat -> exists p, (p < 1)%nat /\ owned (ones two_dofs) p j = true).
Proof. exact equals_example. Qed.
(** Otherwise not: entries that only the second object has are not looked at. *)
Theorem C56_equals_symmetric_refuted : equals (ones one_dof) (ones two_dofs) (1 / 10 ^ 8) 2 1 = true /\
  equals (ones two_dofs) (ones one_dof) (1 / 10 ^ 8) 2 1 = false.
Proof. exact equals_asymmetric. Qed.
Print Assumptions C56_equals_symmetric_refuted.
