(** Whole simulations: collision, streaming and time loop together. *)
From Verif Require Import Prelude BigSum ModelStencils SpecStencils ModelConfigNames ModelEquilibria ModelCollision ModelRun ModelCheckpoint ModelSemiLagrangian ModelSEDG
  ModelTimeIntegration ModelSimulation SpecCollision SpecSetup SpecCollideAll SpecRun SpecSEDG SpecSEDGRun SpecTimeIntegration SpecSimulation
  ProofCollideAll ProofRestart2 ProofSEDG ProofSEDGRate ProofSEDGSums ProofSEDGMain ProofSEDGStencil ProofTimeIntegration4 ProofSEDGRun.
Local Open Scope R_scope.

Section Content.
  Context {cell : Type} (S : space cell) (qn : nat -> nat) (cells : list cell).
  Notation content := (content S qn cells).
  Lemma content_ext g h : (forall c i, In c cells -> (i < dofs_per_cell S)%nat -> g (dof_index S c i) = h (dof_index S c i)) -> content g = content h.
  Proof. intros H. unfold SpecSimulation.content. apply total_ext. intros c Hc. apply sumf_ext. intros i Hi. rewrite H by assumption. reflexivity. Qed.
  Lemma content_plus g h : content (fun n => g n + h n) = content g + content h.
  Proof.
    unfold SpecSimulation.content. rewrite <- total_plus. apply total_ext. intros c _. rewrite <- sumf_plus. apply sumf_ext. intros; ring.
  Qed.
  Lemma content_scal x g : content (fun n => x * g n) = x * content g.
  Proof.
    unfold SpecSimulation.content. rewrite <- total_scal. apply total_ext. intros c _. rewrite <- sumf_scal. apply sumf_ext. intros; ring.
  Qed.
  Lemma content_sum Q (f : nat -> nat -> R) : content (fun n => sumf Q (f n)) = sumf Q (fun a => content (fun n => f n a)).
  Proof.
    induction Q as [|Q IH]; cbn [sumf].
    - transitivity (0 * content (fun _ => 0)); [|ring]. rewrite <- content_scal. apply content_ext. intros; ring.
    - rewrite content_plus, IH. reflexivity.
  Qed.
  Lemma content_integral (f : nat -> nat -> R) a : content (fun n => f n a) = integral S qn cells (fun a n => f n a) a.
  Proof. reflexivity. Qed.
End Content.

(** A functional that changes at a constant rate. *)
Lemma constant_rate n A b w kappa : (forall x, sumf n (fun i => w i * rhs n A b x i) = kappa) ->
  exists c, Rabs (c - 1) <= / 100000000000000000000 /\
  forall stored f t dt r, rk5_step n stored f A b t dt = Ok r -> sumf n (fun i => w i * sp_f r i) = sumf n (fun i => w i * f i) + c * sp_dt r * kappa.
Proof.
  intros K. destruct rk5_taylor as (c & C0 & C & _ & T). exists (c 1%nat). split.
  { specialize (C 1%nat ltac:(lia)). replace (/ INR (fact 1)) with 1 in C by (cbn; field). exact C. }
  intros stored f t dt r E.
  assert (L : forall x, sumf n (fun i => w i * sumf n (fun j => A i j * x j)) = 0).
  { intros x. assert (K0 := K (fun _ => 0)). specialize (K x). unfold rhs in K, K0.
    rewrite (sumf_ext n (fun i => w i * (sumf n (fun j => A i j * x j) + b i)) (fun i => w i * sumf n (fun j => A i j * x j) + w i * b i)) in K by (intros; ring).
    rewrite (sumf_ext n (fun i => w i * (sumf n (fun j => A i j * 0) + b i)) (fun i => w i * b i)) in K0.
    2:{ intros i Hi. rewrite (sumf_zero n (fun j => A i j * 0)) by (intros; ring). ring. }
    rewrite sumf_plus in K. lra. }
  rewrite (sumf_ext n _ (fun i => sumf 6 (fun k => c k * sp_dt r ^ k * (w i * SpecTimeIntegration.derivative n A b f k i)))).
  2:{ intros i Hi. rewrite (T _ _ _ _ _ _ _ _ E i Hi), <- sumf_scal. apply sumf_ext. intros; ring. }
  rewrite sumf_swap. 
  rewrite (sumf_ext 6 _ (fun k => c k * sp_dt r ^ k * sumf n (fun i => w i * SpecTimeIntegration.derivative n A b f k i))) by (intros; rewrite sumf_scal; reflexivity).
  assert (Z : forall k, sumf n (fun i => w i * SpecTimeIntegration.derivative n A b f (Datatypes.S (Datatypes.S k)) i) = 0) by (intros k; apply L).
  cbn [sumf]. rewrite !Z, C0. change (SpecTimeIntegration.derivative n A b f 0) with f. change (SpecTimeIntegration.derivative n A b f 1) with (rhs n A b f). rewrite K. ring.
Qed.

Section Stream.
  Context {cell : Type} (S : space cell) (qn : nat -> nat) (fd : nat -> nat -> nat) (t : StencilType) (scaling : R)
          (velocity : nat -> option (point -> point)) (cells : list cell) (N : nat).
  Notation st := (stencil_of t scaling).
  Hypothesis Hd : sp_dim S = st_D st.
  Hypothesis Hs : scaling <> 0.
  Hypothesis G : good_mesh S qn fd cells.
  Hypothesis Sup : supported S velocity cells.
  Hypothesis HN : numbers S cells N.
  Variable s : system.
  Hypothesis Es : reassemble S st false velocity cells empty_system = Ok s.
  Notation D := (st_Q st - 1)%nat.
  Notation content := (content S qn cells).

  Lemma step_total dt f : exists r, rk5_step (D * N) dt (f_stream N f) (flat_matrix N s) (flat_vector N s) 0 dt = Ok r /\ sp_dt r = dt.
  Proof.
    destruct (proj1 (rk5_runs (D * N) dt (f_stream N f) (flat_matrix N s) (flat_vector N s) 0 dt) ltac:(auto)) as [r E].
    exists r. split; [exact E|]. apply rk5_inv in E. destruct E as ([[-> ->]|[_ ->]] & _); reflexivity.
  Qed.
  Lemma population_stream f a n : (1 <= a)%nat -> (n < N)%nat -> populations N (f_stream N f) a n = f n a.
  Proof.
    intros Ha Hn. unfold populations, f_stream. destruct (decode N ltac:(lia) (a - 1)%nat n Hn) as [-> ->]. f_equal. lia.
  Qed.
  Lemma weighted_rhs x a : (1 <= a < st_Q st)%nat ->
    sumf (D * N) (fun r => node_weight S qn cells N a r * rhs (D * N) (flat_matrix N s) (flat_vector N s) x r) = integral S qn cells (rate s (unflat N D x)) a.
  Proof.
    intros Ha. rewrite (weighted S qn t scaling cells N Hd (proj1 HN)) by exact Ha. unfold integral. apply total_ext. intros c Hc. apply sumf_ext. intros i Hi. f_equal.
    assert (B := proj1 HN c i Hc Hi). unfold populations. rewrite flat_rhs by lia. destruct (decode N ltac:(lia) (a - 1)%nat (dof_index S c i) B) as [-> ->]. f_equal. lia.
  Qed.
  Lemma weighted_stream a x g : (1 <= a < st_Q st)%nat -> (forall n, (n < N)%nat -> populations N x a n = g n) ->
    sumf (D * N) (fun r => node_weight S qn cells N a r * x r) = content g.
  Proof.
    intros Ha H. rewrite (weighted S qn t scaling cells N Hd (proj1 HN)) by exact Ha. unfold integral, SpecSimulation.content. apply total_ext. intros c Hc. apply sumf_ext. intros i Hi.
    rewrite H by (apply (proj1 HN); assumption). reflexivity.
  Qed.

  (** *** Periodic domains: every population keeps its content *)
  Lemma stream_population dt f a : no_walls S cells -> (a < st_Q st)%nat -> content (fun n => dg_stream N (st_Q st) s dt f n a) = content (fun n => f n a).
  Proof.
    intros Nw Ha. destruct a as [|b]; [reflexivity|].
    destruct (step_total dt f) as (r & E & _).
    assert (C : conserved (D * N) (flat_matrix N s) (flat_vector N s) (node_weight S qn cells N (Datatypes.S b))).
    { intros x. rewrite weighted_rhs by lia. apply (periodic_mass S qn fd t scaling velocity cells Hd Hs G Sup s Es _ _ Nw). lia. }
    assert (X := rk5_conserved _ _ _ _ _ _ _ _ _ C E).
    rewrite (weighted_stream (Datatypes.S b) (sp_f r) (fun n => dg_stream N (st_Q st) s dt f n (Datatypes.S b))) in X; [|lia|].
    - rewrite (weighted_stream (Datatypes.S b) (f_stream N f) (fun n => f n (Datatypes.S b))) in X; [exact X|lia|].
      intros n Hn. apply population_stream; [lia|exact Hn].
    - intros n Hn. unfold populations, dg_stream. rewrite E. f_equal. lia.
  Qed.
  Lemma stream_periodic dt f g : no_walls S cells ->
    content (fun n => sumf (st_Q st) (fun a => dg_stream N (st_Q st) s dt f n a * g a)) = content (fun n => sumf (st_Q st) (fun a => f n a * g a)).
  Proof.
    intros Nw. rewrite (content_sum S qn cells _ (fun n a => dg_stream N (st_Q st) s dt f n a * g a)), (content_sum S qn cells _ (fun n a => f n a * g a)).
    apply sumf_ext. intros a Ha.
    rewrite (content_ext S qn cells (fun n => dg_stream N (st_Q st) s dt f n a * g a) (fun n => g a * dg_stream N (st_Q st) s dt f n a)) by (intros; ring).
    rewrite (content_ext S qn cells (fun n => f n a * g a) (fun n => g a * f n a)) by (intros; ring).
    rewrite !content_scal, stream_population by assumption. reflexivity.
  Qed.

  (** *** Walls: the mass changes by what they displace *)
  Lemma over_split Q (h : nat -> R) : (0 < Q)%nat -> sumf Q h = h 0%nat + sumf (Q - 1) (fun b => h (Datatypes.S b)).
  Proof.
    intros HQ. destruct Q as [|Q]; [lia|]. replace (Datatypes.S Q - 1)%nat with Q by lia. clear HQ. induction Q as [|Q IH]; [cbn; ring|].
    change (sumf (Datatypes.S (Datatypes.S Q)) h) with (sumf (Datatypes.S Q) h + h (Datatypes.S Q)). rewrite IH. cbn [sumf]. ring.
  Qed.
  Lemma stream_mass : closed_form t = true -> exists c, Rabs (c - 1) <= / 100000000000000000000 /\ forall dt f,
    content (fun n => mass st (dg_stream N (st_Q st) s dt f n)) = content (fun n => mass st (f n)) - c * dt * wall_flux S velocity cells.
  Proof.
    intros Hc. set (w := fun r => sumf D (fun b => node_weight S qn cells N (Datatypes.S b) r)).
    assert (W : forall x, sumf (D * N) (fun r => w r * x r) = sumf D (fun b => sumf (D * N) (fun r => node_weight S qn cells N (Datatypes.S b) r * x r))).
    { intros x. rewrite sumf_swap. apply sumf_ext. intros r _. unfold w. rewrite Rmult_comm, <- sumf_scal. apply sumf_ext. intros; ring. }
    assert (K : forall x, sumf (D * N) (fun r => w r * rhs (D * N) (flat_matrix N s) (flat_vector N s) x r) = - wall_flux S velocity cells).
    { intros x. rewrite W. rewrite <- (wall_mass S qn fd t scaling velocity cells Hd Hs G Sup s Es (unflat N D x) Hc). unfold over_directions. apply sumf_ext.
      intros b Hb. apply weighted_rhs. lia. }
    destruct (constant_rate _ _ _ _ _ K) as (c & Bc & T). exists c. split; [exact Bc|]. intros dt f.
    destruct (step_total dt f) as (r & E & Edt). specialize (T _ _ _ _ _ E). rewrite !W, Edt in T.
    assert (HQ : (0 < st_Q st)%nat) by (assert (M := many_directions t scaling); lia).
    assert (X : forall x g, (forall b n, (b < D)%nat -> (n < N)%nat -> populations N x (Datatypes.S b) n = g n (Datatypes.S b)) ->
      content (fun n => mass st (g n)) = content (fun n => g n 0%nat) + sumf D (fun b => sumf (D * N) (fun r0 => node_weight S qn cells N (Datatypes.S b) r0 * x r0))).
    { intros x g H. unfold mass. rewrite content_sum, over_split by exact HQ. f_equal. apply sumf_ext. intros b Hb. symmetry. apply weighted_stream; [lia|].
      intros n Hn. apply H; assumption. }
    rewrite (X (sp_f r) (dg_stream N (st_Q st) s dt f)), (X (f_stream N f) f).
    - rewrite T. cbn [dg_stream]. lra.
    - intros b n Hb Hn. apply population_stream; [lia|exact Hn].
    - intros b n Hb Hn. unfold populations, dg_stream. rewrite E. f_equal. lia.
  Qed.
End Stream.
