(** Sparsity pattern of the discontinuous Galerkin operator. *)
From Verif Require Import Prelude ModelStencils ModelSemiLagrangian ModelSEDG SpecSEDG ProofSEDGMesh ProofSEDGWitness ModelSparsity SpecSparsity ProofSparsity2 ProofSparsity3.
Local Open Scope R_scope.

(** C123 (partial: only if boundary ids are face numbers). Every entry the assembly adds to the matrix has a place in the
    sparsity pattern of its block, for all stencils, both fluxes, periodic boundaries and walls. *)
Theorem C123_pattern_partial : forall {cell : Type} (S : space cell) (qn : nat -> nat) (fd : nat -> nat -> nat) (t : StencilType) (scaling : R) (central : bool)
  (velocity : nat -> option (point -> point)) (m : mesh cell) (cells : list cell) (s : system),
  collocated S qn fd -> built_on S m cells -> faces_exist S cells -> periodic_keys m -> walls_supported S m cells -> same_order S cells fd ->
  ids_are_faces S m cells ->
  reassemble S (stencil_of t scaling) central velocity cells empty_system = Ok s ->
  exists pattern, update_pattern S m (stencil_of t scaling) cells = Ok pattern /\ has_place pattern (fst s).
Proof. intros cell S qn fd t scaling central velocity m cells s H1 H2 H3 H4 H5 H6 H7. exact (pattern_holds S qn fd t scaling central velocity m cells H1 H2 H3 H4 H5 H7 H6 s). Qed.
Print Assumptions C123_pattern_partial.

(** A channel of two cells, periodic in x (ids 0, 1), with walls (ids 2, 3). *)
Example C123_nonvacuous : collocated channel (fun i => i) strip_fd /\ built_on channel (ids 0 1 2 3) two /\ faces_exist channel two /\ periodic_keys (ids 0 1 2 3) /\
  walls_supported channel (ids 0 1 2 3) two /\ same_order channel two strip_fd /\ ids_are_faces channel (ids 0 1 2 3) two /\
  exists s, reassemble channel S9 false still two empty_system = Ok s.
Proof.
  split; [exact (gm_collocated _ _ _ _ channel_good)|]. split; [exact built_channel|]. split; [exact exist_channel|]. split; [apply keys_ok|].
  split; [|split; [exact order_channel|split; [exact ids_channel|exact (channel_runs false empty_system)]]].
  apply walls_ok. intros c f b E. cbn [channel at_face] in E. destruct f as [|[|[|f]]]; try discriminate; injection E as <-; auto.
Qed.

(** C123 refuted for other ids: on the same channel with the walls numbered 0 and 1 and the periodic ends 2 and 3, an entry that is
    not zero has no place in the pattern. *)
Theorem C123_missing_refuted : exists (m : mesh bool) (s : system) (pattern : nat -> nat -> list (nat * nat)),
  collocated (strip true) (fun i => i) strip_fd /\ built_on (strip true) m two /\ faces_exist (strip true) two /\ periodic_keys m /\ walls_supported (strip true) m two /\
  same_order (strip true) two strip_fd /\
  reassemble (strip true) S9 false still two empty_system = Ok s /\ update_pattern (strip true) m S9 two = Ok pattern /\
  exists i j v, v <> 0 /\ In (0%nat, 0%nat, i, j, v) (fst s) /\ ~ In (i, j) (pattern 0%nat 0%nat).
Proof. exact missing_ids. Qed.
Print Assumptions C123_missing_refuted.

(** C123 refuted for ids that are no face numbers: with ends 10 and 11 a face that does not exist is asked for. *)
Theorem C123_outside_refuted : exists (m : mesh bool) (s : system),
  collocated (strip true) (fun i => i) strip_fd /\ built_on (strip true) m two /\ faces_exist (strip true) two /\ periodic_keys m /\ walls_supported (strip true) m two /\
  same_order (strip true) two strip_fd /\
  reassemble (strip true) S9 false still two empty_system = Ok s /\ update_pattern (strip true) m S9 two = UB.
Proof. exact outside_ids. Qed.
Print Assumptions C123_outside_refuted.
