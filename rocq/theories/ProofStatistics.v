(** Proofs about the integrals of PhysicalProperties. *)
From Coq Require Import NArith Permutation Psatz.
From Verif Require Import Prelude BigSum ModelErrors ModelStatistics SpecStatistics.
Local Open Scope R_scope.

Lemma fold_add {A} (g : A -> R) : forall l s, fold_left (fun r c => r + g c) l s = s + suml g l.
Proof. induction l as [|x l IH]; intros s; simpl; [ring|]. rewrite IH. ring. Qed.

Lemma over_cells_suml g l : over_cells l g = suml g l.
Proof. unfold over_cells. rewrite fold_add. ring. Qed.

Lemma over_indices_suml g l : over_indices l g = suml g l.
Proof. unfold over_indices. rewrite fold_add. ring. Qed.

Lemma mpi_sum_suml {A} (f : A -> R) l : mpi_sum l f = suml f l.
Proof. induction l as [|x l IH]; simpl; [reflexivity|]. rewrite <- IH. reflexivity. Qed.

Lemma suml_concat {A} (g : A -> R) : forall ls, suml (fun l => suml g l) ls = suml g (concat ls).
Proof. induction ls as [|l ls IH]; simpl; [reflexivity|]. rewrite IH, suml_app. reflexivity. Qed.

Lemma suml_plus {A} (f g : A -> R) l : suml (fun x => f x + g x) l = suml f l + suml g l.
Proof. induction l as [|x l IH]; simpl; [ring|]. rewrite IH. ring. Qed.
Lemma suml_scal {A} (k : R) (f : A -> R) l : suml (fun x => k * f x) l = k * suml f l.
Proof. induction l as [|x l IH]; simpl; [ring|]. rewrite IH. ring. Qed.
Lemma suml_le {A} (f g : A -> R) l : (forall x, In x l -> f x <= g x) -> suml f l <= suml g l.
Proof.
  induction l as [|x l IH]; simpl; intros H; [lra|].
  assert (f x <= g x) by auto. assert (suml f l <= suml g l) by auto. lra.
Qed.

Lemma integrate_q_flat nq ranks g : integrate_q nq ranks g = suml (fun c => sumf nq (fun q => g c q)) (concat ranks).
Proof.
  unfold integrate_q. rewrite mpi_sum_suml, <- suml_concat. apply suml_ext. intros. apply over_cells_suml.
Qed.
Lemma integrate_flat n nq ranks g : integrate n nq ranks g = suml (fun c => sumf nq (fun q => sumf n (fun i => g c q i))) (concat ranks).
Proof.
  unfold integrate. rewrite mpi_sum_suml, <- suml_concat. apply suml_ext. intros. apply over_cells_suml.
Qed.

Lemma integral_ext nq cells g h : (forall c q, In c cells -> (q < nq)%nat -> g c q = h c q) -> integral nq cells g = integral nq cells h.
Proof. intros H. apply suml_ext. intros c Hc. apply sumf_ext. intros q Hq. rewrite (H c q Hc Hq). reflexivity. Qed.
Lemma integral_plus nq cells g h : integral nq cells (fun c q => g c q + h c q) = integral nq cells g + integral nq cells h.
Proof.
  unfold integral. rewrite <- suml_plus. apply suml_ext. intros. rewrite <- sumf_plus. apply sumf_ext. intros. ring.
Qed.
Lemma integral_scal nq cells k g : integral nq cells (fun c q => k * g c q) = k * integral nq cells g.
Proof.
  unfold integral. rewrite <- suml_scal. apply suml_ext. intros. rewrite <- sumf_scal. apply sumf_ext. intros. ring.
Qed.
Lemma integral_le nq cells g h : positive_weights nq cells -> (forall c q, In c cells -> (q < nq)%nat -> g c q <= h c q) ->
  integral nq cells g <= integral nq cells h.
Proof.
  intros W H. apply suml_le. intros c Hc. apply sumf_le. intros q Hq.
  apply Rmult_le_compat_r; [left; apply W; auto|apply H; auto].
Qed.
Lemma integral_const nq cells k : integral nq cells (fun _ _ => k) = k * volume nq cells.
Proof. unfold volume. rewrite <- integral_scal. apply integral_ext. intros. ring. Qed.
Lemma integral_perm nq l1 l2 g : Permutation l1 l2 -> integral nq l1 g = integral nq l2 g.
Proof. apply suml_perm. Qed.
Lemma integral_nonneg nq cells g : positive_weights nq cells -> (forall c q, In c cells -> (q < nq)%nat -> 0 <= g c q) -> 0 <= integral nq cells g.
Proof.
  intros W H. replace 0 with (integral nq cells (fun _ _ => 0)) by (rewrite integral_const; ring). apply integral_le; auto.
Qed.
Lemma volume_pos nq cells : positive_weights nq cells -> cells <> [] -> (0 < nq)%nat -> 0 < volume nq cells.
Proof.
  intros W Hn Hq. destruct cells as [|c l]; [congruence|]. unfold volume, integral. cbn [suml].
  assert (A : 0 <= suml (fun c => sumf nq (fun q => 1 * fc_JxW c q)) l).
  { replace 0 with (suml (fun _ : fe_cell => 0) l) by (clear; induction l as [|x l IH]; simpl; [reflexivity|rewrite IH; ring]).
    apply suml_le. intros x Hx. apply sumf_nonneg. intros q Hq'. rewrite Rmult_1_l. left. apply W; simpl; auto. }
  assert (B : 0 < sumf nq (fun q => 1 * fc_JxW c q)).
  { destruct nq as [|m]; [lia|]. cbn [sumf].
    assert (0 <= sumf m (fun q => 1 * fc_JxW c q)).
    { apply sumf_nonneg. intros q Hq'. rewrite Rmult_1_l. left. apply W; simpl; auto; lia. }
    assert (0 < fc_JxW c m) by (apply W; simpl; auto; lia). lra. }
  lra.
Qed.

Lemma integrate_nodal n nq ranks (v : field) :
  integrate n nq ranks (fun c q i => v (fc_dof c i) * fc_shape c i q * fc_JxW c q) = integral nq (concat ranks) (at_point n v).
Proof.
  rewrite integrate_flat. apply suml_ext. intros c Hc. apply sumf_ext. intros q Hq.
  unfold at_point. rewrite <- sumf_scal_r. reflexivity.
Qed.
Lemma integrate_q_integral nq ranks g :
  integrate_q nq ranks (fun c q => g c q * fc_JxW c q) = integral nq (concat ranks) g.
Proof. apply integrate_q_flat. Qed.

Lemma at_point_plus n v w c q : at_point n (fun i => v i + w i) c q = at_point n v c q + at_point n w c q.
Proof. unfold at_point. rewrite <- sumf_plus. apply sumf_ext. intros. ring. Qed.
Lemma at_point_scal n k v c q : at_point n (fun i => k * v i) c q = k * at_point n v c q.
Proof. unfold at_point. rewrite <- sumf_scal. apply sumf_ext. intros. ring. Qed.
Lemma at_point_const n nq cells k c q : partition_of_unity n nq cells -> In c cells -> (q < nq)%nat -> at_point n (fun _ => k) c q = k.
Proof. intros P Hc Hq. unfold at_point. rewrite (sumf_scal n k (fun i => fc_shape c i q)), (P c q Hc Hq). ring. Qed.
Lemma at_point_collocated n nq cells v c q : collocated n nq cells -> In c cells -> (q < nq)%nat -> at_point n v c q = v (fc_dof c q).
Proof.
  intros [E H] Hc Hq. unfold at_point.
  rewrite (sumf_ext n _ (fun i => delta q i * v (fc_dof c i))).
  - rewrite (sumf_delta n q (fun i => v (fc_dof c i))) by lia. reflexivity.
  - intros i Hi. rewrite (H c i q Hc Hi Hq), delta_sym. ring.
Qed.
Lemma collocated_unity n nq cells : collocated n nq cells -> partition_of_unity n nq cells.
Proof.
  intros H c q Hc Hq. pose proof (at_point_collocated n nq cells (fun _ => 1) c q H Hc Hq) as E. unfold at_point in E.
  rewrite <- E. apply sumf_ext. intros. ring.
Qed.

(** ** mass *)
Lemma mass_summary n nq ranks : let cells := concat ranks in
  (forall rho, mass n nq ranks rho = integral nq cells (at_point n rho)) /\
  (forall k a b, mass n nq ranks (fun i => k * a i + b i) = k * mass n nq ranks a + mass n nq ranks b) /\
  (forall k, partition_of_unity n nq cells -> mass n nq ranks (fun _ => k) = k * volume nq cells) /\
  (forall ranks' rho, Permutation cells (concat ranks') -> mass n nq ranks' rho = mass n nq ranks rho).
Proof.
  assert (M : forall rk rho, mass n nq rk rho = integral nq (concat rk) (at_point n rho)) by (intros; apply integrate_nodal).
  cbv zeta. split; [apply M|]. split; [|split].
  - intros k a b. rewrite !M, <- integral_scal, <- integral_plus. apply integral_ext. intros. rewrite at_point_plus, at_point_scal. ring.
  - intros k P. rewrite M, <- integral_const. apply integral_ext. intros. apply (at_point_const n nq (concat ranks)); auto.
  - intros ranks' rho P. rewrite !M. symmetry. apply integral_perm. exact P.
Qed.

(** ** kinetic energy *)
Definition nodal_energy (dim : nat) (u : nat -> field) (rho : field) : field := fun l => rho l * sumf dim (fun a => u a l ^ 2) / 2.

Lemma energy2_nodal n nq ranks u rho : kineticEnergy2 n nq ranks u rho = integral nq (concat ranks) (at_point n (nodal_energy 2 u rho)).
Proof.
  unfold kineticEnergy2. cbv zeta.
  rewrite <- (integrate_nodal n nq ranks (nodal_energy 2 u rho)), !integrate_flat, <- suml_scal.
  apply suml_ext. intros c Hc. rewrite <- sumf_scal. apply sumf_ext. intros q Hq. rewrite <- sumf_scal. apply sumf_ext. intros i Hi.
  unfold nodal_energy. cbn [sumf]. field.
Qed.
Lemma energy3_nodal n nq ranks u rho : kineticEnergy3 n nq ranks u rho = integral nq (concat ranks) (at_point n (nodal_energy 3 u rho)).
Proof.
  unfold kineticEnergy3. cbv zeta.
  rewrite <- (integrate_nodal n nq ranks (nodal_energy 3 u rho)), !integrate_flat, <- suml_scal.
  apply suml_ext. intros c Hc. rewrite <- sumf_scal. apply sumf_ext. intros q Hq. rewrite <- sumf_scal. apply sumf_ext. intros i Hi.
  unfold nodal_energy. cbn [sumf]. field.
Qed.

Lemma energy_nodal g u rho : (st_dim g = 2 \/ st_dim g = 3)%nat ->
  kineticEnergy g u rho = integral (st_n_q g) (concat (st_ranks g)) (at_point (st_dofs_per_cell g) (nodal_energy (st_dim g) u rho)).
Proof.
  intros [D|D]; unfold kineticEnergy; rewrite D; cbn [Nat.eqb]; [apply energy2_nodal|apply energy3_nodal].
Qed.

Lemma energy_summary g : (st_dim g = 2 \/ st_dim g = 3)%nat ->
  let cells := concat (st_ranks g) in let n := st_dofs_per_cell g in let nq := st_n_q g in
  (forall u rho, kineticEnergy g u rho =
     integral nq cells (at_point n (fun l => rho l * sumf (st_dim g) (fun a => u a l ^ 2) / 2))) /\
  (collocated n nq cells -> forall u rho, kineticEnergy g u rho =
     integral nq cells (fun c q => at_point n rho c q * speed_sq (st_dim g) n u c q / 2)) /\
  (collocated n nq cells -> positive_weights nq cells -> forall u rho, (forall i, 0 <= rho i) -> 0 <= kineticEnergy g u rho).
Proof.
  intros D. cbv zeta.
  assert (C : collocated (st_dofs_per_cell g) (st_n_q g) (concat (st_ranks g)) -> forall u rho, kineticEnergy g u rho =
     integral (st_n_q g) (concat (st_ranks g)) (fun c q => at_point (st_dofs_per_cell g) rho c q * speed_sq (st_dim g) (st_dofs_per_cell g) u c q / 2)).
  { intros Co u rho. rewrite energy_nodal by exact D. apply integral_ext. intros c q Hc Hq.
    rewrite !(at_point_collocated _ _ _ _ c q Co Hc Hq). unfold nodal_energy, speed_sq. f_equal. f_equal.
    apply sumf_ext. intros a Ha. rewrite (at_point_collocated _ _ _ _ c q Co Hc Hq). reflexivity. }
  split; [intros; apply energy_nodal; exact D|]. split; [exact C|].
  intros Co W u rho P. rewrite C by exact Co. apply integral_nonneg; [exact W|]. intros c q Hc Hq.
  rewrite (at_point_collocated _ _ _ rho c q Co Hc Hq).
  assert (0 <= speed_sq (st_dim g) (st_dofs_per_cell g) u c q) by (apply sumf_nonneg; intros; apply pow2_ge_0).
  specialize (P (fc_dof c q)). apply Rmult_le_pos; [apply Rmult_le_pos; assumption|lra].
Qed.

(** ** enstrophy *)
Lemma vorticity_slope n u c q : vorticity2 n u c q = slope n (u 1%nat) c q 0 - slope n (u 0%nat) c q 1.
Proof. unfold vorticity2, slope. rewrite <- sumf_minus. reflexivity. Qed.

Lemma enstrophy2_summary n nq ranks u : let cells := concat ranks in
  fst (enstrophy2 n nq ranks u) = integral nq cells (curl_sq 2 n u) /\
  snd (enstrophy2 n nq ranks u) = integral nq cells (fun c q => curl_sq 2 n u c q ^ 2).
Proof.
  cbv zeta. split; unfold enstrophy2; cbn [fst snd]; cbv zeta; rewrite integrate_q_flat; apply suml_ext; intros c Hc; apply sumf_ext; intros q Hq;
    rewrite vorticity_slope; unfold curl_sq; cbn [Nat.eqb]; ring.
Qed.

Definition gradient_sq (n : nat) (u : nat -> field) (c : fe_cell) (q : nat) : R :=
  sumf 3 (fun i => sumf 3 (fun k => slope n (u i) c q k ^ 2)).

Lemma frobenius_slope n u c q : frobenius_sq n u c q = gradient_sq n u c q.
Proof. unfold frobenius_sq, gradient_sq, slope. cbn [sumf]. ring. Qed.

Lemma enstrophy3_summary n nq ranks u : let cells := concat ranks in
  fst (enstrophy3 n nq ranks u) = integral nq cells (fun c q => sumf 3 (fun i => sumf 3 (fun k => slope n (u i) c q k ^ 2))) /\
  fst (enstrophy3 n nq ranks u) = integral nq cells (curl_sq 3 n u)
    + integral nq cells (fun c q => sumf 3 (fun i => sumf 3 (fun k => slope n (u i) c q k * slope n (u k) c q i))).
Proof.
  cbv zeta.
  assert (A : fst (enstrophy3 n nq ranks u) = integral nq (concat ranks) (gradient_sq n u)).
  { unfold enstrophy3. cbn [fst]. rewrite integrate_q_integral. apply integral_ext. intros. apply frobenius_slope. }
  split; [exact A|]. rewrite A, <- integral_plus. apply integral_ext. intros c q Hc Hq.
  unfold gradient_sq, curl_sq. cbn [Nat.eqb sumf]. ring.
Qed.
