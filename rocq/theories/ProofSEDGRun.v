(** Discontinuous Galerkin operator under the time integrators: the system as one flat matrix. *)
From Verif Require Import Prelude BigSum ModelStencils ModelSemiLagrangian ModelSEDG SpecSEDG ProofSEDG ProofSEDGRate ProofSEDGSums ProofSEDGMain ProofSEDGStencil
  ModelTimeIntegration SpecTimeIntegration ProofTimeIntegration4 SpecSEDGRun.
Local Open Scope R_scope.

Lemma apply_row_total l F a i : apply_row l F a i = total l (fun en => entry_term F a i en).
Proof. unfold apply_row. induction l as [|x l IH]; [reflexivity|]. cbn [fold_right total]. rewrite IH. reflexivity. Qed.
Lemma vector_total l a i : vector_value l a i = total l (fun x => let '(a', i', y) := x in if (Nat.eqb a a' && Nat.eqb i i')%bool then y else 0).
Proof. unfold vector_value. induction l as [|x l IH]; [reflexivity|]. cbn [fold_right total]. rewrite IH. reflexivity. Qed.

Section Flat.
  Variables (N D : nat).
  Hypothesis HN : (0 < N)%nat.
  Definition unflat (x : nat -> R) (b j : nat) : R := if (Nat.ltb (b - 1) D && Nat.ltb j N)%bool then x ((b - 1) * N + j)%nat else 0.
  Lemma decode b j : (j < N)%nat -> ((b * N + j) / N = b /\ (b * N + j) mod N = j)%nat.
  Proof.
    intros Hj. split.
    - rewrite Nat.div_add_l by lia. rewrite Nat.div_small by exact Hj. lia.
    - rewrite Nat.add_comm, Nat.mod_add by lia. apply Nat.mod_small. exact Hj.
  Qed.
  Lemma flat_column (x : nat -> R) b j v : sumf (D * N) (fun c => (if (Nat.eqb (c / N) b && Nat.eqb (c mod N) j)%bool then v else 0) * x c) = v * unflat x (Datatypes.S b) j.
  Proof.
    unfold unflat. replace (Datatypes.S b - 1)%nat with b by lia. destruct (Nat.ltb_spec b D) as [Hb|Hb], (Nat.ltb_spec j N) as [Hj|Hj]; cbn [andb].
    - rewrite (sumf_ext _ _ (fun c => if Nat.eqb (b * N + j) c then v * x c else 0)).
      + rewrite (sumf_one _ _ (fun c => v * x c)); [reflexivity|]. nia.
      + intros c Hc. destruct (Nat.eqb_spec (b * N + j) c) as [<-|Nc].
        * destruct (decode b j Hj) as [-> ->]. rewrite !Nat.eqb_refl. reflexivity.
        * destruct (Nat.eqb_spec (c / N) b) as [E1|]; [|cbn [andb]; ring]. destruct (Nat.eqb_spec (c mod N) j) as [E2|]; [|cbn [andb]; ring].
          exfalso. apply Nc. rewrite <- E1, <- E2. rewrite (Nat.div_mod c N) at 3 by lia. lia.
    - rewrite sumf_zero; [ring|]. intros c Hc. destruct (Nat.eqb_spec (c mod N) j) as [E2|]; [|rewrite andb_false_r; ring]. assert (M := Nat.mod_upper_bound c N). lia.
    - rewrite sumf_zero; [ring|]. intros c Hc. destruct (Nat.eqb_spec (c / N) b) as [E1|]; [|cbn [andb]; ring]. assert (c / N < D)%nat by (apply Nat.div_lt_upper_bound; lia). lia.
    - rewrite sumf_zero; [ring|]. intros c Hc. destruct (Nat.eqb_spec (c mod N) j) as [E2|]; [|rewrite andb_false_r; ring]. assert (M := Nat.mod_upper_bound c N). lia.
  Qed.
  Lemma flat_rhs s x r : rhs (D * N) (flat_matrix N s) (flat_vector N s) x r = rate s (unflat x) (Datatypes.S (r / N)) (r mod N).
  Proof.
    unfold rhs, rate, flat_matrix, flat_vector. replace (Datatypes.S (r / N) - 1)%nat with (r / N)%nat by lia. f_equal.
    rewrite apply_row_total. induction (fst s) as [|en l IH]; cbn [total].
    - apply sumf_zero. intros. ring.
    - rewrite <- IH, (sumf_ext _ _ (fun j => flat_entry N r j en * x j + total l (flat_entry N r j) * x j)) by (intros; ring). rewrite sumf_plus. f_equal.
      destruct en as [[[[a' b] i'] j] v]. unfold flat_entry, entry_term. destruct (Nat.eqb (r / N) a' && Nat.eqb (r mod N) i')%bool; cbn [andb].
      + rewrite <- flat_column. reflexivity.
      + apply sumf_zero. intros. ring.
  Qed.
End Flat.

Section Run.
  Context {cell : Type} (S : space cell) (qn : nat -> nat) (fd : nat -> nat -> nat) (t : StencilType) (scaling : R)
          (velocity : nat -> option (point -> point)) (cells : list cell) (N : nat).
  Notation st := (stencil_of t scaling).
  Hypothesis Hd : sp_dim S = st_D st.
  Hypothesis Hs : scaling <> 0.
  Hypothesis G : good_mesh S qn fd cells.
  Hypothesis Nw : no_walls S cells.
  Hypothesis HN : forall c i, In c cells -> (i < dofs_per_cell S)%nat -> (dof_index S c i < N)%nat.
  Variable s : system.
  Hypothesis Es : reassemble S st false velocity cells empty_system = Ok s.
  Notation D := (st_Q st - 1)%nat.

  Definition node_weight (a r : nat) : R := total cells (fun c => sumf (dofs_per_cell S) (fun i => if Nat.eqb ((a - 1) * N + dof_index S c i) r then volume S qn c i else 0)).
  Lemma weighted a x : (1 <= a < st_Q st)%nat -> sumf (D * N) (fun r => node_weight a r * x r) = integral S qn cells (populations N x) a.
  Proof.
    intros Ha. unfold node_weight, integral, populations.
    rewrite (sumf_ext _ _ (fun r => total cells (fun c => x r * sumf (dofs_per_cell S) (fun i => if Nat.eqb ((a - 1) * N + dof_index S c i) r then volume S qn c i else 0)))).
    2:{ intros r Hr. rewrite total_scal. ring. }
    rewrite <- total_sumf_swap. apply total_ext. intros c Hc.
    rewrite (sumf_ext _ _ (fun r => sumf (dofs_per_cell S) (fun i => if Nat.eqb ((a - 1) * N + dof_index S c i) r then volume S qn c i * x r else 0))).
    2:{ intros r Hr. rewrite <- sumf_scal. apply sumf_ext. intros i Hi. destruct (Nat.eqb _ r); ring. }
    rewrite sumf_swap. apply sumf_ext. intros i Hi. assert (B := HN c i Hc Hi). rewrite (sumf_one (D * N) _ (fun r => volume S qn c i * x r)); [reflexivity|]. nia.
  Qed.
  Lemma run_conserved a : (1 <= a < st_Q st)%nat -> conserved (D * N) (flat_matrix N s) (flat_vector N s) (node_weight a).
  Proof.
    intros Ha x. rewrite weighted by exact Ha.
    assert (Sup : supported S velocity cells). { intros c f b Hc Hf E. destruct (Nw c f Hc Hf) as (c' & f' & E'). congruence. }
    rewrite <- (periodic_mass S qn fd t scaling velocity cells Hd Hs G Sup s Es (unflat N D x) a Nw Ha). unfold integral. apply total_ext. intros c Hc. apply sumf_ext. intros i Hi. f_equal.
    assert (B := HN c i Hc Hi). unfold populations. rewrite flat_rhs by lia. destruct (decode N ltac:(lia) (a - 1)%nat (dof_index S c i) B) as [-> ->]. f_equal. lia.
  Qed.
  Theorem run_mass former m z z' a : (1 <= a < st_Q st)%nat -> stream_times (rk5_step (D * N)) former (flat_matrix N s) (flat_vector N s) m z = Ok z' ->
    integral S qn cells (populations N (sg_f z')) a = integral S qn cells (populations N (sg_f z)) a.
  Proof.
    intros Ha E. apply (stream_times_inv (D * N) _ _ (node_weight a)) in E; [|apply rk5_step_ok; apply run_conserved; exact Ha].
    destruct E as (_ & _ & E & _). rewrite !weighted in E by exact Ha. exact E.
  Qed.
End Run.
