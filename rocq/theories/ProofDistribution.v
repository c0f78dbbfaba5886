(** Proofs about ghosted and owned populations. *)
From Verif Require Import Prelude ModelDistribution SpecDistribution.
Local Open Scope R_scope.

Lemma update_component : forall s i, component (updateGhosted s) i = component s i.
Proof. intros s i. unfold updateGhosted. destruct (m_dg s); [reflexivity|]. destruct i; reflexivity. Qed.
Lemma update_Q : forall s, m_Q (updateGhosted s) = m_Q s.
Proof. intros s. unfold updateGhosted. now destruct (m_dg s). Qed.
Lemma update_layout : forall s, m_layout (updateGhosted s) = m_layout s.
Proof. intros s. unfold updateGhosted. now destruct (m_dg s). Qed.
Lemma update_dg : forall s, m_dg (updateGhosted s) = m_dg s.
Proof. intros s. unfold updateGhosted. destruct (m_dg s) eqn:E; [exact E|reflexivity]. Qed.

Lemma dg_consistent : forall s, m_dg s = true -> consistent s.
Proof.
  intros s H p i j Hi Hj. rewrite H. intros O. unfold readGhosted, read. rewrite H.
  apply Nat.ltb_lt in Hi. rewrite Hi, Hj, O, Nat.eqb_refl. cbn [andb]. eauto.
Qed.
Lemma update_consistent : forall s, consistent (updateGhosted s).
Proof.
  intros s. destruct (m_dg s) eqn:E. { apply dg_consistent. now rewrite update_dg. }
  intros p i j. unfold updateGhosted, readGhosted, read. rewrite E. cbn [m_Q m_dg m_layout].
  intros Hi Hj R. apply Nat.ltb_lt in Hi. rewrite Hi, Hj, R, Nat.eqb_refl. cbn [andb].
  destruct i; cbn [m_f0Ghosted m_fStreamGhosted component m_f0 m_fStream]; unfold communicate; rewrite R; eauto.
Qed.

Lemma perform_updates : forall s o s', perform s o = Ok s' -> updates o = true -> consistent s'.
Proof.
  intros s o s' H U. destruct o as [Q L dg|Q L|x|x| |other|c ix|cl T ix| |i j v]; cbn [perform updates] in *; try discriminate.
  - destruct Q; [discriminate|]. cbn [reinit] in H. injection H as <-. apply update_consistent.
  - destruct Q; [discriminate|]. injection H as <-. now apply dg_consistent.
  - injection H as <-. apply update_consistent.
  - unfold assign in H. destruct (Nat.eqb _ _); [|discriminate]. injection H as <-. apply update_consistent.
  - injection H as <-. apply update_consistent.
  - destruct cl; [discriminate|]. injection H as <-. apply update_consistent.
  - injection H as <-. apply update_consistent.
Qed.
Lemma perform_keeps : forall s o s', perform s o = Ok s' -> needs_update o = false -> consistent s -> consistent s'.
Proof.
  intros s o s' H N C. destruct (updates o) eqn:U. { eapply perform_updates; eauto. }
  destruct o as [Q L dg|Q L|x|x| |other|c ix|cl T ix| |i j v]; cbn [perform updates needs_update] in *; try discriminate.
  - inversion H; subst s'; clear H. intros p i j. specialize (C p i j). revert C.
    unfold readGhosted, read, setFStream. cbn [m_Q m_dg m_layout m_f0Ghosted m_fStreamGhosted].
    intros C Hi Hj R. specialize (C Hi Hj R). apply Nat.ltb_lt in Hi. rewrite Hi, Hj, Nat.eqb_refl in *. cbn [andb] in *.
    destruct (m_dg s) eqn:D.
    + rewrite R, Nat.eqb_refl in *. eauto.
    + rewrite R in *. destruct i; cbn [component m_f0 m_fStream] in *; [exact C|]. unfold communicate. rewrite R. eauto.
  - destruct cl; [|discriminate]. injection H as <-. exact C.
Qed.
Lemma all_consistent : forall os s s', perform_all s os = Ok s' -> updated_in_the_end os ->
  consistent s \/ existsb updates os = true -> consistent s'.
Proof.
  induction os as [|o os IH]; intros s s' H U C.
  - cbn in *. injection H as <-. destruct C; [assumption|discriminate].
  - cbn [perform_all] in H. destruct (perform s o) as [s1| |] eqn:P; cbn [obind] in H; try discriminate.
    cbn [updated_in_the_end] in U. destruct U as [N U]. apply (IH s1 s' H U).
    cbn [existsb] in C. destruct (needs_update o) eqn:E. { right. now apply N. }
    destruct (updates o) eqn:F. { left. eapply perform_updates; eauto. }
    destruct C as [C|C]; [left; eapply perform_keeps; eauto|]. right. exact C.
Qed.
Lemma start_consistent : forall dg L, consistent (empty_distributions dg L).
Proof. intros dg L p i j H. cbn in H. lia. Qed.
Lemma ghost_consistent : forall dg L os s, perform_all (empty_distributions dg L) os = Ok s ->
  updated_in_the_end os -> consistent s.
Proof. intros. eapply all_consistent; eauto. left. apply start_consistent. Qed.

(** Discontinuous Galerkin: no update is ever needed. *)
Lemma perform_dg : forall s o s', perform s o = Ok s' -> m_dg s = true -> (forall Q L, o <> Reinit Q L false) -> m_dg s' = true.
Proof.
  intros s o s' H D N. destruct o as [Q L dg|Q L|x|x| |other|c ix|cl T ix| |i j v]; cbn [perform] in *.
  - destruct Q; [discriminate|]. cbn [reinit] in H. injection H as <-. rewrite update_dg. cbn. destruct dg; [reflexivity|]. now contradiction (N (S Q) L).
  - destruct Q; [discriminate|]. now injection H as <-.
  - now injection H as <-.
  - now injection H as <-.
  - injection H as <-. unfold compress. now rewrite update_dg.
  - unfold assign in H. destruct (Nat.eqb _ _); [|discriminate]. injection H as <-. now rewrite update_dg.
  - injection H as <-. unfold scaleF. now rewrite update_dg.
  - injection H as <-. unfold transfer. destruct cl; [assumption|]. now rewrite update_dg.
  - injection H as <-. now rewrite update_dg.
  - unfold write in H. destruct (Nat.ltb _ _); [|discriminate]. now injection H as <-.
Qed.
Lemma dg_always : forall os s s', perform_all s os = Ok s' -> m_dg s = true -> (forall Q L, ~ In (Reinit Q L false) os) -> consistent s'.
Proof.
  induction os as [|o os IH]; intros s s' H D N.
  - cbn in H. injection H as <-. now apply dg_consistent.
  - cbn [perform_all] in H. destruct (perform s o) as [s1| |] eqn:P; cbn [obind] in H; try discriminate.
    apply (IH s1 s' H).
    + eapply perform_dg; eauto. intros Q L E. apply (N Q L). now left.
    + intros Q L E. apply (N Q L). now right.
Qed.

(** Two processes, two degrees of freedom, both relevant everywhere. *)
Definition two : layout := mkLayout (fun j => j) (fun p _ => Nat.ltb p 2) (fun j => Nat.ltb j 2).
Lemma setF0_stale : exists s, perform_all (empty_distributions false two) [Reinit 2 two false; SetF0 (fun j => INR j + 1)] = Ok s /\
  read s 1 0 1 = Ok 2 /\ readGhosted s 1 0 1 = Ok 0.
Proof.
  eexists. split; [reflexivity|]. split.
  - unfold read. cbn. f_equal; try lra.
  - reflexivity.
Qed.
Lemma ghost_example : exists s, perform_all (empty_distributions false two)
    [Reinit 2 two false; Write 0 1 3; SetF0 (fun j => INR j + 1); SetFStream (fun _ _ => 5); ScaleF 2 (fun _ => true)] = Ok s /\
  readGhosted s 0 0 1 = Ok 4 /\ readGhosted s 0 1 1 = Ok 10 /\ read s 0 0 1 = Throw.
Proof.
  eexists. split; [reflexivity|]. split; [|split].
  - unfold readGhosted. cbn. f_equal; try lra.
  - unfold readGhosted. cbn. f_equal; try lra.
  - reflexivity.
Qed.

(** ** Effect of the operations *)
Lemma update_read : forall s p i j, read (updateGhosted s) p i j = read s p i j.
Proof. intros s p i j. unfold updateGhosted. destruct (m_dg s); reflexivity. Qed.
Lemma component_with : forall s g i, component (with_components s g) i = g i.
Proof. intros s g [|b]; reflexivity. Qed.
Lemma scale_reads : forall s c s', perform s (ScaleF c (dofs_in (m_layout s))) = Ok s' ->
  forall p i j, read s' p i j = obind (read s p i j) (fun v => Ok (c * v)).
Proof.
  intros s c s' H p i j. cbn [perform] in H. injection H as <-. unfold scaleF. rewrite update_read. unfold read at 1.
  rewrite component_with. change (m_Q (with_components s _)) with (m_Q s). change (m_layout (with_components s _)) with (m_layout s).
  unfold read. destruct (Nat.ltb i (m_Q s)); [|reflexivity]. destruct (dofs_in (m_layout s) j); [|reflexivity].
  cbn [andb]. destruct (Nat.eqb _ _); reflexivity.
Qed.
Lemma assign_reads : forall s t s', perform s (Assign t) = Ok s' -> m_layout t = m_layout s -> forall p i j, read s' p i j = read t p i j.
Proof.
  intros s t s' H L p i j. cbn [perform] in H. unfold assign in H. destruct (Nat.eqb_spec (m_Q t) (m_Q s)) as [Q|]; [|discriminate].
  injection H as <-. rewrite update_read. unfold read. rewrite component_with.
  change (m_Q (with_components s _)) with (m_Q s). change (m_layout (with_components s _)) with (m_layout s). now rewrite L, Q.
Qed.
Lemma stream_reads : forall s x s', perform s (SetFStream x) = Ok s' ->
  forall p i j, read s' p i j = match i with O => read s p O j | S b => obind (read s p i j) (fun _ => Ok (x b j)) end.
Proof.
  intros s x s' H p i j. cbn [perform] in H. injection H as <-. unfold setFStream, read. cbn [m_Q m_layout].
  destruct i as [|b]; [reflexivity|]. destruct (Nat.ltb _ _); [|reflexivity]. destruct (dofs_in (m_layout s) j && _)%bool; reflexivity.
Qed.

(** ** equals *)
Lemma equals_on_spec : forall s t th n p, equals_on s t th n p = true <->
  m_Q s = m_Q t /\ forall i j, (i < m_Q s)%nat -> (j < n)%nat -> owned s p j = true ->
    owned t p j = true /\ Rabs (component s i j - component t i j) <= th.
Proof.
  intros s t th n p. unfold equals_on. destruct (Nat.eqb_spec (m_Q s) (m_Q t)) as [E|E]; cbn [negb].
  2: { split; [discriminate|]. intros [H _]. contradiction. }
  rewrite forallb_forall. split.
  - intros H. split; [assumption|]. intros i j Hi Hj O.
    assert (Ii : In i (List.seq 0 (m_Q s))) by (apply in_seq; lia). specialize (H i Ii). rewrite forallb_forall in H.
    assert (Ij : In j (List.seq 0 n)) by (apply in_seq; lia). specialize (H j Ij). rewrite O in H.
    destruct (owned t p j); [|discriminate]. split; [reflexivity|].
    destruct (Rlt_dec th (Rabs (component s i j - component t i j))); [discriminate|]. lra.
  - intros [_ H] i Ii. apply in_seq in Ii. rewrite forallb_forall. intros j Ij. apply in_seq in Ij.
    destruct (owned s p j) eqn:O; [|reflexivity]. destruct (H i j) as [O' B]; try lia; [assumption|].
    rewrite O'. destruct (Rlt_dec _ _); [lra|reflexivity].
Qed.
Lemma equals_spec : forall s t th n procs, equals s t th n procs = true <->
  forall p, (p < procs)%nat -> m_Q s = m_Q t /\ forall i j, (i < m_Q s)%nat -> (j < n)%nat -> owned s p j = true ->
    owned t p j = true /\ Rabs (component s i j - component t i j) <= th.
Proof.
  intros. unfold equals. rewrite forallb_forall. split.
  - intros H p Hp. apply equals_on_spec, H, in_seq. lia.
  - intros H p Hp. apply in_seq in Hp. apply equals_on_spec, H. lia.
Qed.
Lemma equals_decides : forall s t th n procs, (0 < procs)%nat -> same_layout s t ->
  (forall j, (j < n)%nat -> exists p, (p < procs)%nat /\ owned s p j = true) ->
  (equals s t th n procs = true <->
   m_Q s = m_Q t /\ forall i j, (i < m_Q s)%nat -> (j < n)%nat -> Rabs (component s i j - component t i j) <= th).
Proof.
  intros s t th n procs Hp L O. rewrite equals_spec. split.
  - intros H. split; [apply (H 0%nat); lia|]. intros i j Hi Hj. destruct (O j Hj) as (p & Pp & Po).
    destruct (H p Pp) as [_ G]. now apply G.
  - intros [E H] p _. split; [assumption|]. intros i j Hi Hj Oj. split; [now rewrite <- L|auto].
Qed.
Lemma equals_symmetric : forall s t th n procs, same_layout s t -> equals s t th n procs = equals t s th n procs.
Proof.
  assert (G : forall s t th n procs, same_layout s t -> equals s t th n procs = true -> equals t s th n procs = true).
  { intros s t th n procs L. rewrite !equals_spec. intros H p Hp. destruct (H p Hp) as [E B]. split; [now symmetry|].
    intros i j Hi Hj O. rewrite <- L in O. destruct (B i j) as [O' B']; try lia; [assumption|]. split; [assumption|].
    now rewrite Rabs_minus_sym. }
  intros s t th n procs L. assert (L' : same_layout t s) by (intros p j; symmetry; apply L).
  destruct (equals s t th n procs) eqn:A, (equals t s th n procs) eqn:B; try reflexivity.
  - rewrite (G _ _ _ _ _ L A) in B. discriminate.
  - rewrite (G _ _ _ _ _ L' B) in A. discriminate.
Qed.
Definition one_dof : layout := mkLayout (fun _ => 0%nat) (fun _ _ => true) (fun j => Nat.ltb j 1).
Definition two_dofs : layout := mkLayout (fun _ => 0%nat) (fun _ _ => true) (fun j => Nat.ltb j 2).
Definition ones (L : layout) : distributions := mkDist 2 (fun _ => 1) (fun _ _ => 1) (fun _ _ => 1) (fun _ _ _ => 1) true L.
Lemma equals_asymmetric : equals (ones one_dof) (ones two_dofs) (1 / 10 ^ 8) 2 1 = true /\
  equals (ones two_dofs) (ones one_dof) (1 / 10 ^ 8) 2 1 = false.
Proof.
  assert (Z : Rabs (1 - 1) = 0) by (replace (1 - 1) with 0 by lra; apply Rabs_R0). split.
  - apply equals_spec. intros p Hp. assert (p = 0)%nat by lia. subst p. split; [reflexivity|].
    intros i j Hi Hj O. destruct j as [|[|j]]; try lia; [|discriminate]. split; [reflexivity|].
    replace (component (ones one_dof) i 0%nat - component (ones two_dofs) i 0%nat) with (1 - 1) by (destruct i; reflexivity). rewrite Z. lra.
  - destruct (equals _ _ _ _ _) eqn:E; [|reflexivity]. pose proof (proj1 (equals_spec _ _ _ _ _) E) as H.
    destruct (H 0%nat) as [_ G]; [lia|]. destruct (G 0%nat 1%nat) as [O _]; [cbn; lia|lia|reflexivity|]. discriminate.
Qed.
Lemma equals_example : same_layout (ones two_dofs) (ones two_dofs) /\
  (forall j, (j < 2)%nat -> exists p, (p < 1)%nat /\ owned (ones two_dofs) p j = true).
Proof. split; [intros p j; reflexivity|]. intros j Hj. exists 0%nat. split; [lia|]. destruct j as [|[|j]]; try lia; reflexivity. Qed.
