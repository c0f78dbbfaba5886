(** Discontinuous Galerkin transport under the theta method: no amplification over whole runs. *)
From Verif Require Import Prelude BigSum ModelStencils ModelSemiLagrangian ModelSEDG SpecSEDG ProofSEDG ProofSEDGRate ProofSEDGSums ProofSEDGMain ProofSEDGStencil
  ModelTimeIntegration SpecTimeIntegration SpecTimeRuns ProofTimeIntegration ProofTimeIntegration3 ProofTimeIntegration4 ProofTimeRuns ProofTimeRuns2 SpecSEDGRun ProofSEDGRun.
Local Open Scope R_scope.

Lemma total_nonneg {T} (l : list T) g : (forall x, In x l -> 0 <= g x) -> 0 <= total l g.
Proof. intros H. rewrite <- (total_zero l (fun _ => 0)) by reflexivity. apply total_le. exact H. Qed.

(** A right-hand side that takes out energy: no growth. *)
Lemma theta_run_rhs solve theta n A b w former m s s' : solves n 0 solve -> (forall i, (i < n)%nat -> 0 <= w i) ->
  (forall x, wdot n w x (rhs n A b x) <= 0) -> 1 / 2 <= theta <= 1 -> stream_times (theta_step solve theta n) former A b m s = Ok s' ->
  wdot n w (sg_f s') (sg_f s') <= wdot n w (sg_f s) (sg_f s).
Proof.
  intros HS Hw HA Ht E.
  refine (stream_ind n A b (theta_step solve theta n) former (fun _ f => wdot n w f f <= wdot n w (sg_f s) (sg_f s)) m s s' (theta_step_ok solve theta n A b _ HS (zero_conserved n A b)) (Rle_refl _) _ E).
  intros k f r _ Hh IH R. eapply Rle_trans; [|exact IH]. set (h := sg_dt s) in *.
  assert (B := theta_balance n A w theta h f (sp_f r) (fun i => h * b i)). cbn zeta in B.
  assert (Q : forall i, (i < n)%nat -> sp_f r i - f i = h * sumf n (fun j => A i j * (theta * sp_f r j + (1 - theta) * f j)) + h * b i).
  { intros i Hi. rewrite (theta_form solve theta n A b HS h f r R i Hi). ring. }
  specialize (B Q). set (g := fun i => theta * sp_f r i + (1 - theta) * f i) in *.
  assert (D := HA g). assert (D' : wdot n w g (rhs n A b g) = wdot n w g (fun i => sumf n (fun j => A i j * g j)) + wdot n w b g).
  { unfold wdot, rhs. rewrite <- sumf_plus. apply sumf_ext. intros. ring. }
  rewrite wdot_scal_l in B.
  assert (P := wdot_pos n w Hw (fun i => sp_f r i - f i)).
  assert (0 <= (2 * theta - 1) * wdot n w (fun i => sp_f r i - f i) (fun i => sp_f r i - f i)) by (apply Rmult_le_pos; lra).
  assert (0 <= h * - wdot n w g (rhs n A b g)) by (apply Rmult_le_pos; lra).
  rewrite D' in *. lra.
Qed.

Section Run.
  Context {cell : Type} (S : space cell) (qn : nat -> nat) (fd : nat -> nat -> nat) (t : StencilType) (scaling : R)
          (velocity : nat -> option (point -> point)) (cells : list cell) (N : nat).
  Notation st := (stencil_of t scaling).
  Hypothesis G : good_mesh S qn fd cells.
  Hypothesis HN : forall c i, In c cells -> (i < dofs_per_cell S)%nat -> (dof_index S c i < N)%nat.
  Variable s : system.
  Notation D := (st_Q st - 1)%nat.
  Variable omega : nat -> R.
  Hypothesis Ho : forall a, (1 <= a < st_Q st)%nat -> 0 <= omega a.
  Hypothesis HE : forall F, over_directions st (fun a => omega a * inner S qn cells (F a) (rate s F a)) <= 0.

  Lemma weighted_dot a x : (1 <= a < st_Q st)%nat -> sumf (D * N) (fun r => node_weight S qn cells N a r * x r) = integral S qn cells (populations N x) a.
  Proof.
    intros Ha. unfold node_weight, integral, populations.
    rewrite (sumf_ext _ _ (fun r => total cells (fun c => x r * sumf (dofs_per_cell S) (fun i => if Nat.eqb ((a - 1) * N + dof_index S c i) r then volume S qn c i else 0)))).
    2:{ intros r Hr. rewrite total_scal. ring. }
    rewrite <- total_sumf_swap. apply total_ext. intros c Hc.
    rewrite (sumf_ext _ _ (fun r => sumf (dofs_per_cell S) (fun i => if Nat.eqb ((a - 1) * N + dof_index S c i) r then volume S qn c i * x r else 0))).
    2:{ intros r Hr. rewrite <- sumf_scal. apply sumf_ext. intros i Hi. destruct (Nat.eqb _ r); ring. }
    rewrite sumf_swap. apply sumf_ext. intros i Hi. assert (B := HN c i Hc Hi). rewrite (sumf_one (D * N) _ (fun r => volume S qn c i * x r)); [reflexivity|]. clear - B Ha. nia.
  Qed.
  Definition energy_weight (r : nat) : R := sumf D (fun b => omega (Datatypes.S b) * node_weight S qn cells N (Datatypes.S b) r).
  Lemma weight_pos r : 0 <= energy_weight r.
  Proof.
    apply sumf_nonneg. intros b Hb. apply Rmult_le_pos; [apply Ho; lia|]. unfold node_weight. apply total_nonneg. intros c Hc. apply sumf_nonneg. intros i Hi.
    destruct (Nat.eqb _ _); [|lra]. left. apply (volume_pos S qn fd cells G); assumption.
  Qed.
  Lemma energy_dot x y : wdot (D * N) energy_weight x y = over_directions st (fun a => omega a * inner S qn cells (populations N x a) (populations N y a)).
  Proof.
    unfold wdot, energy_weight, over_directions.
    rewrite (sumf_ext _ _ (fun r => sumf D (fun b => omega (Datatypes.S b) * (node_weight S qn cells N (Datatypes.S b) r * (x r * y r))))).
    2:{ intros r _. rewrite Rmult_assoc, <- sumf_scal_r. apply sumf_ext. intros. ring. }
    rewrite sumf_swap. apply sumf_ext. intros b Hb. rewrite sumf_scal. f_equal.
    rewrite (weighted_dot (Datatypes.S b) (fun r => x r * y r)) by lia.
    unfold integral, inner, populations. reflexivity.
  Qed.
  Lemma energy_rate x : wdot (D * N) energy_weight x (rhs (D * N) (flat_matrix N s) (flat_vector N s) x) <= 0.
  Proof.
    rewrite energy_dot. eapply Rle_trans; [|exact (HE (unflat N D x))]. right.
    unfold over_directions. apply sumf_ext. intros b Hb. f_equal. unfold inner. apply total_ext. intros c Hc. apply sumf_ext. intros i Hi. f_equal.
    assert (B := HN c i Hc Hi). unfold populations. replace (Datatypes.S b - 1)%nat with b by lia. f_equal.
    - unfold unflat. replace (Datatypes.S b - 1)%nat with b by lia. rewrite (proj2 (Nat.ltb_lt b D)) by exact Hb. rewrite (proj2 (Nat.ltb_lt _ N)) by exact B. reflexivity.
    - rewrite flat_rhs by lia. destruct (decode N ltac:(lia) b (dof_index S c i) B) as [-> ->]. reflexivity.
  Qed.
  Lemma transport_energy solve theta former m z z' : solves (D * N) 0 solve -> 1 / 2 <= theta <= 1 ->
    stream_times (theta_step solve theta (D * N)) former (flat_matrix N s) (flat_vector N s) m z = Ok z' ->
    over_directions st (fun a => omega a * inner S qn cells (populations N (sg_f z') a) (populations N (sg_f z') a))
    <= over_directions st (fun a => omega a * inner S qn cells (populations N (sg_f z) a) (populations N (sg_f z) a)).
  Proof.
    intros HS Ht E. rewrite <- !energy_dot. exact (theta_run_rhs solve theta (D * N) _ _ energy_weight former m z z' HS (fun r _ => weight_pos r) energy_rate Ht E).
  Qed.
End Run.
