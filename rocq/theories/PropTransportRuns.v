(** C151 continued: discontinuous Galerkin transport under the theta method. *)
From Verif Require Import Prelude BigSum ModelStencils ModelSemiLagrangian ModelSEDG SpecSEDG ProofSEDG ProofSEDGRate ProofSEDGSums ProofSEDGMain ProofSEDGStencil ProofSEDGMesh ProofSEDGWitness
  ModelTimeIntegration SpecTimeIntegration SpecTimeRuns ProofTransportRuns SpecSEDGRun PropSEDG.
Local Open Scope R_scope.

(** Periodic domains, every mesh, order, stencil, direction, length and number of time steps: the squared populations never grow. *)
Theorem C151_transport : forall (cell : Type) (S : space cell) qn fd t scaling velocity cells N s,
  sp_dim S = st_D (stencil_of t scaling) -> scaling <> 0 -> good_mesh S qn fd cells -> no_walls S cells ->
  (forall c i, In c cells -> (i < dofs_per_cell S)%nat -> (dof_index S c i < N)%nat) ->
  (forall c f q, In c cells -> (f < faces_per_cell S)%nat -> (q < n_face_points S)%nat -> 0 <= face_JxW S c f q) ->
  reassemble S (stencil_of t scaling) false velocity cells empty_system = Ok s -> forall solve theta former m z z' a,
  solves ((st_Q (stencil_of t scaling) - 1) * N) 0 solve -> 1 / 2 <= theta <= 1 -> (1 <= a < st_Q (stencil_of t scaling))%nat ->
  stream_times (theta_step solve theta ((st_Q (stencil_of t scaling) - 1) * N)) former (flat_matrix N s) (flat_vector N s) m z = Ok z' ->
  inner S qn cells (populations N (sg_f z') a) (populations N (sg_f z') a) <= inner S qn cells (populations N (sg_f z) a) (populations N (sg_f z) a).
Proof.
  intros cell S qn fd t scaling velocity cells N s Hd Hs G Nw HN HJ E solve theta former m z z' a HS Ht Ha R.
  set (om := fun b => if Nat.eqb a b then 1 else 0).
  assert (X : forall g, over_directions (stencil_of t scaling) (fun b => om b * g b) = g a).
  { intros g. unfold over_directions, om. rewrite (sumf_ext _ _ (fun b => if Nat.eqb (a - 1) b then g (Datatypes.S b) else 0)).
    - rewrite (sumf_one _ _ (fun b => g (Datatypes.S b))) by lia. f_equal. lia.
    - intros b _. destruct (Nat.eqb_spec a (Datatypes.S b)), (Nat.eqb_spec (a - 1) b); try lia; ring. }
  assert (Y := transport_energy S qn fd t scaling cells N G HN s om ltac:(intros b _; unfold om; destruct (Nat.eqb a b); lra)
    ltac:(intros F; rewrite (X (fun b => inner S qn cells (F b) (rate s F b))), (C61_energy cell S qn fd t scaling velocity cells s F a Hd Hs G Nw E Ha);
      assert (J : 0 <= jumps S fd (stencil_of t scaling) velocity cells F a) by
        (apply total_nonneg; intros c Hc; apply sumf_nonneg; intros f Hf; apply sumf_nonneg; intros q Hq; apply Rmult_le_pos;
         [apply Rmult_le_pos; [apply HJ; assumption|apply Rabs_pos]|apply pow2_ge_0]); lra)
    solve theta former m z z' HS Ht R).
  rewrite (X (fun b => inner S qn cells (populations N (sg_f z') b) (populations N (sg_f z') b))) in Y.
  rewrite (X (fun b => inner S qn cells (populations N (sg_f z) b) (populations N (sg_f z) b))) in Y. exact Y.
Qed.
Print Assumptions C151_transport.
Example C151_transport_ex : good_mesh (strip false) (fun i => i) strip_fd two /\ no_walls (strip false) two /\
  (forall c i, In c two -> (i < dofs_per_cell (strip false))%nat -> (dof_index (strip false) c i < 8)%nat) /\
  (forall c f q, 0 <= face_JxW (strip false) c f q).
Proof. split; [apply C59_mass_ex|]. split; [apply C59_mass_ex|]. split; [exact C59_run_ex|]. intros. cbn. lra. Qed.

(** With walls at rest, for the sum over the directions with any weights that opposite directions share. *)
Theorem C151_transport_walls : forall (cell : Type) (S : space cell) qn fd t scaling velocity cells N s omega,
  sp_dim S = st_D (stencil_of t scaling) -> scaling <> 0 -> good_mesh S qn fd cells -> supported S velocity cells -> resting_walls S velocity cells ->
  (forall c i, In c cells -> (i < dofs_per_cell S)%nat -> (dof_index S c i < N)%nat) ->
  (forall c f q, In c cells -> (f < faces_per_cell S)%nat -> (q < n_face_points S)%nat -> 0 <= face_JxW S c f q) ->
  (forall a, (1 <= a < st_Q (stencil_of t scaling))%nat -> omega (opposite (stencil_of t scaling) a) = omega a /\ 0 <= omega a) ->
  reassemble S (stencil_of t scaling) false velocity cells empty_system = Ok s -> forall solve theta former m z z',
  solves ((st_Q (stencil_of t scaling) - 1) * N) 0 solve -> 1 / 2 <= theta <= 1 ->
  stream_times (theta_step solve theta ((st_Q (stencil_of t scaling) - 1) * N)) former (flat_matrix N s) (flat_vector N s) m z = Ok z' ->
  over_directions (stencil_of t scaling) (fun a => omega a * inner S qn cells (populations N (sg_f z') a) (populations N (sg_f z') a))
  <= over_directions (stencil_of t scaling) (fun a => omega a * inner S qn cells (populations N (sg_f z) a) (populations N (sg_f z) a)).
Proof.
  intros cell S qn fd t scaling velocity cells N s omega Hd Hs G Sup Rw HN HJ Ho E solve theta former m z z' HS Ht R.
  exact (transport_energy S qn fd t scaling cells N G HN s omega (fun a Ha => proj2 (Ho a Ha))
    (fun F => C61_walls cell S qn fd t scaling velocity cells s omega F Hd Hs G Sup Rw HJ Ho E) solve theta former m z z' HS Ht R).
Qed.
Print Assumptions C151_transport_walls.
Example C151_transport_walls_ex : supported (strip true) still two /\ resting_walls (strip true) still two /\
  (forall c i, In c two -> (i < dofs_per_cell (strip true))%nat -> (dof_index (strip true) c i < 8)%nat) /\ (forall c f q, 0 <= face_JxW (strip true) c f q).
Proof. split; [apply C61_walls_ex|]. split; [apply C61_walls_ex|]. split; [|apply C61_walls_ex]. intros [|] i _ Hi; cbn [strip dofs_per_cell dof_index] in *; lia. Qed.
