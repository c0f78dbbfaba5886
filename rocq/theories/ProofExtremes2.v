(** Streaming aligned with the grid creates no new extremes, whatever the order. *)
From Verif Require Import Prelude BigSum ModelStencils ModelSemiLagrangian ModelWalls ModelSimulationSL SpecSemiLagrangian SpecLattice ProofLattice.
Local Open Scope R_scope.
Lemma aligned_range D p N h plane e opp dt Q n g shape dofs cells m : lattice_mesh D p N h e dt Q n g shape dofs cells m ->
  exists z, assemble (torus D N h plane) e opp dt n (fun j i => INR (g j i) / INR p) dofs Q shape cells = Some (Ok z) /\
  forall f lo hi, (forall i a, lo <= f i a <= hi) -> forall c j a, In c cells -> (j < n)%nat -> (a < Q)%nat -> lo <= sl_stream Q z f (dofs c j) a <= hi.
Proof.
  intros LM. destruct (shift_rows D p N h plane e opp dt Q n g shape dofs cells m LM) as (z & Hz & Hrow). exists z. split; [exact Hz|].
  intros f lo hi Hf c j a Hc Hj Ha. unfold sl_stream. rewrite (proj2 (Nat.ltb_lt a Q) Ha). destruct a as [|b]; cbn [multiply]; [apply Hf|].
  destruct (Hrow c j (S b) Hc Hj ltac:(lia)) as (c2 & k & _ & _ & _ & E). replace (S b - 1)%nat with b in E by lia. rewrite E. apply Hf.
Qed.
