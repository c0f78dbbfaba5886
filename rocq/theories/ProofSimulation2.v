(** Whole simulations: the time loop around [ProofSimulation]. *)
From Verif Require Import Prelude BigSum ModelStencils SpecStencils ModelConfigNames ModelEquilibria ModelCollision ModelRun ModelCheckpoint ModelSemiLagrangian ModelSEDG
  ModelTimeIntegration ModelSimulation SpecCollision SpecSetup SpecCollideAll SpecRun SpecSEDG SpecSEDGRun SpecTimeIntegration SpecCheckpoint SpecSimulation
  ProofCollideNode ProofFixed ProofCollideAll ProofForces ProofRestart ProofRestart2 ProofSEDG ProofSEDGRate ProofSEDGSums ProofSEDGMain ProofSEDGStencil ProofTimeIntegration4 ProofSEDGRun ProofSimulation.
Local Open Scope R_scope.

(** A quantity that every collision changes by [dc] and every streaming step by [ds]. *)
Section Books.
  Context {X D : Type}.
  Variables (c : run_config) (o : solver_ops X D) (M : X -> R) (dc ds dt : R).
  Hypothesis Hf : rc_filtering c = false.
  Hypothesis Hp : so_processors o = [].
  Hypothesis Hc : forall x y, so_collide o x = Ok y -> M y = M x + dc.
  Hypothesis Ha : forall t x, M (advected c o t dt x) = M x + ds.
  Lemma evolve_books k : forall i t x y, evolve c o k i t dt x = Ok y -> M y = M x + INR k * (ds + dc).
  Proof.
    induction k as [|k IH]; intros i t x y E.
    - cbn [evolve] in E. injection E as <-. cbn [INR]. ring.
    - cbn [evolve] in E. unfold filtered in E. rewrite Hf in E. cbn [andb] in E.
      destruct (so_collide o (advected c o t dt x)) as [z| |] eqn:Ez; cbn [obind] in E; try discriminate.
      rewrite Hp in E. cbn [fold_left] in E. apply IH in E. apply Hc in Ez. rewrite Ha in Ez. rewrite S_INR. lra.
  Qed.
  Lemma run_books fuel s0 s tr : constant_step c o -> rc_compressible c = false -> sv_dt s0 = dt -> run c o fuel s0 = Some (Ok (s, tr)) ->
    M (sv_x s) = M (sv_x s0) + INR (sv_i s - sv_start s0) * ds + (INR (sv_i s - sv_start s0) + 1) * dc /\
    forall n st d, In (EvCheckpoint n st d) tr -> exists x, d = so_data o x /\
      M x = M (sv_x s0) + INR (n - sv_start s0) * ds + (INR (n - sv_start s0) + 1) * dc.
  Proof.
    intros Hdt Hnc Edt E. destruct (run_evolution c o fuel s0 s tr Hdt Hnc E) as (y & Hy & Hev & HF). apply Hc in Hy. rewrite Edt in *. split.
    - apply evolve_books in Hev. rewrite Hev, Hy. ring.
    - intros n st d Hin. destruct (HF n st d Hin) as (_ & _ & _ & _ & xn & Hx & ->). exists xn. split; [reflexivity|]. apply evolve_books in Hx. rewrite Hx, Hy. ring.
  Qed.
End Books.

Section Simulation.
  Context {cell : Type} (S : space cell) (qn : nat -> nat) (fd : nat -> nat -> nat) (t : StencilType) (scaling : R)
          (velocity : nat -> option (point -> point)) (cells : list cell) (N : nat).
  Notation st := (stencil_of t scaling).
  Hypothesis Hd : sp_dim S = st_D st.
  Hypothesis Hs : scaling <> 0.
  Hypothesis Hcf : closed_form t = true.
  Hypothesis G : good_mesh S qn fd cells.
  Hypothesis Sup : supported S velocity cells.
  Hypothesis HN : numbers S cells N.
  Variable s : system.
  Hypothesis Es : reassemble S st false velocity cells empty_system = Ok s.
  Variables (k : T_collision) (q : T_equilibrium) (gd : genData) (nodes : list nat) (filt : (nat -> nat -> R) -> nat -> nat -> R) (c : run_config) (dt : R).
  Hypothesis Hnd : NoDup nodes.
  Hypothesis Hown : forall n, (n < N)%nat -> In n nodes.
  Hypothesis Hsl : rc_semi_lagrangian c = false.
  Hypothesis Hfl : rc_filtering c = false.
  Hypothesis Hnc : rc_compressible c = false.
  Notation o := (dg_ops k q gd st scaling nodes N s filt).
  Notation content := (content S qn cells).

  Lemma steps_constant : constant_step c o.
  Proof. right. reflexivity. Qed.

  Variable dj : nat -> R.
  Hypothesis Hcol : forall f u out, collide_node k q gd false f u = Ok out -> changes_momentum_by st f (no_f out) dj.

  Lemma collide_each x y : so_collide o x = Ok y -> forall cl i, In cl cells -> (i < dofs_per_cell S)%nat ->
    changes_momentum_by st (fl_f x (dof_index S cl i)) (fl_f y (dof_index S cl i)) dj.
  Proof.
    intros E cl i Hc Hi. cbn [dg_ops cfd_ops so_collide] in E. destruct (all_node_by_node k q gd false nodes x y Hnd E) as [A _].
    destruct (A (dof_index S cl i)) as (out & Eo & Ef & _). { apply Hown. apply (proj1 HN); assumption. }
    rewrite Ef. exact (Hcol _ _ _ Eo).
  Qed.

  Lemma simulated_mass : exists cst, Rabs (cst - 1) <= / 100000000000000000000 /\ forall fuel s0 s1 tr, sv_dt s0 = dt -> run c o fuel s0 = Some (Ok (s1, tr)) ->
    content (fun n => mass st (fl_f (sv_x s1) n)) = content (fun n => mass st (fl_f (sv_x s0) n)) - INR (sv_i s1 - sv_start s0) * (cst * dt * wall_flux S velocity cells) /\
    forall m stat d, In (EvCheckpoint m stat d) tr ->
      content (fun n => mass st (d n)) = content (fun n => mass st (fl_f (sv_x s0) n)) - INR (m - sv_start s0) * (cst * dt * wall_flux S velocity cells).
  Proof.
    destruct (stream_mass S qn fd t scaling velocity cells N Hd Hs G Sup HN s Es Hcf) as (cst & Bc & T). exists cst. split; [exact Bc|]. intros fuel s0 s1 tr Edt E.
    destruct (run_books c o (fun x => content (fun n => mass st (fl_f x n))) 0 (- (cst * dt * wall_flux S velocity cells)) dt Hfl eq_refl) with (fuel := fuel) (s0 := s0) (s := s1) (tr := tr) as [A B].
    - intros x y Exy. rewrite Rplus_0_r. apply content_ext. intros cl i Hc Hi. apply (collide_each x y Exy cl i Hc Hi).
    - intros tm x. unfold advected. rewrite Hsl. cbn [dg_ops cfd_ops so_integrate fst fl_f]. rewrite T. ring.
    - exact steps_constant.
    - exact Hnc.
    - exact Edt.
    - exact E.
    - split; [rewrite A; ring|]. intros m stat d Hin. destruct (B m stat d Hin) as (x & -> & Ex). cbn [dg_ops cfd_ops so_data]. rewrite Ex. ring.
  Qed.

  Lemma simulated_momentum : no_walls S cells -> forall fuel s0 s1 tr, sv_dt s0 = dt -> run c o fuel s0 = Some (Ok (s1, tr)) -> forall a, (a < st_D st)%nat ->
    content (fun n => momentum st (fl_f (sv_x s1) n) a) = content (fun n => momentum st (fl_f (sv_x s0) n) a) + (INR (sv_i s1 - sv_start s0) + 1) * (dj a * content (fun _ => 1)) /\
    forall m stat d, In (EvCheckpoint m stat d) tr ->
      content (fun n => momentum st (d n) a) = content (fun n => momentum st (fl_f (sv_x s0) n) a) + (INR (m - sv_start s0) + 1) * (dj a * content (fun _ => 1)).
  Proof.
    intros Nw fuel s0 s1 tr Edt E a Hda.
    destruct (run_books c o (fun x => content (fun n => momentum st (fl_f x n) a)) (dj a * content (fun _ => 1)) 0 dt Hfl eq_refl) with (fuel := fuel) (s0 := s0) (s := s1) (tr := tr) as [A B].
    - intros x y Exy. rewrite <- content_scal, <- content_plus. apply content_ext. intros cl i Hc Hi. destruct (collide_each x y Exy cl i Hc Hi) as [_ X]. rewrite X by exact Hda. ring.
    - intros tm x. unfold advected. rewrite Hsl. cbn [dg_ops cfd_ops so_integrate fst fl_f]. rewrite Rplus_0_r.
      exact (stream_periodic S qn fd t scaling velocity cells N Hd Hs G Sup HN s Es dt (fl_f x) (fun b => st_e st b a) Nw).
    - exact steps_constant.
    - exact Hnc.
    - exact Edt.
    - exact E.
    - split; [rewrite A; ring|]. intros m stat d Hin. destruct (B m stat d Hin) as (x & -> & Ex). cbn [dg_ops cfd_ops so_data]. rewrite Ex. ring.
  Qed.
End Simulation.

(** ** Uniform flow *)
Section Uniform.
  Context {cell : Type} (S : space cell) (qn : nat -> nat) (fd : nat -> nat -> nat) (t : StencilType) (scaling : R)
          (velocity : nat -> option (point -> point)) (cells : list cell) (N : nat).
  Notation st := (stencil_of t scaling).
  Hypothesis Hd : sp_dim S = st_D st.
  Hypothesis Hcf : closed_form t = true.
  Hypothesis G : good_mesh S qn fd cells.
  Hypothesis Sup : supported S velocity cells.
  Hypothesis HN : numbers S cells N.
  Variable s : system.
  Hypothesis Es : reassemble S st false velocity cells empty_system = Ok s.
  Variables (k : T_collision) (q : T_equilibrium) (cfg : collision_config) (nu dt : R) (nodes : list nat) (filt : (nat -> nat -> R) -> nat -> nat -> R) (c : run_config).
  Hypothesis Hv : valid_setup cfg scaling nu dt.
  Hypothesis Hq : carries_momentum q = true.
  Hypothesis Hrun : runs_on k t cfg = true.
  Hypothesis Hnd : NoDup nodes.
  Hypothesis Hown : forall n, In n nodes <-> (n < N)%nat.
  Hypothesis HN0 : (0 < N)%nat.
  Variables (rho : R) (v : nat -> R) (E : nat -> R).
  Hypothesis Hrho : 1 / 10 ^ 10 < rho.
  Hypothesis HE : equilibrium_populations q cfg st scaling rho v 1 E.
  Hypothesis Hwall : forall cl f b u p a, In cl cells -> (f < faces_per_cell S)%nat -> (p < n_face_points S)%nat -> (1 <= a < st_Q st)%nat ->
     at_face S cl f = Outside b -> velocity b = Some u -> E a - E (opposite st a) = wall_shift S st (u (face_point S cl f p)) a.
  Notation D := (st_Q st - 1)%nat.
  Definition uniform (f : nat -> nat -> R) : Prop := forall n i, (n < N)%nat -> (i < st_Q st)%nat -> f n i = E i.
  Hypothesis Hfilt : forall f, uniform f -> uniform (filt f).
  Notation o := (dg_ops k q (make_genData cfg None st scaling nu dt) st scaling nodes N s filt).

  Lemma Hscale : scaling <> 0.
  Proof. destruct Hv as (H & _). lra. Qed.
  Lemma uniform_rate F cl i a : (forall b n, (1 <= b < st_Q st)%nat -> (n < N)%nat -> F b n = E b) -> In cl cells -> (i < dofs_per_cell S)%nat -> (1 <= a < st_Q st)%nat ->
    rate s F a (dof_index S cl i) = 0.
  Proof.
    intros HF Hc Hi Ha. assert (Co := gm_collocated _ _ _ _ G).
    rewrite (derivative S qn fd t scaling velocity cells Hd Hscale G Sup s Es F cl i a Hc Hi Ha).
    - rewrite sumf_zero; [ring|]. intros d Hdd. unfold slope.
      rewrite (sumf_ext _ _ (fun j => E a * shape_grad S cl j (qn i) d)).
      2:{ intros j Hj. rewrite HF; [reflexivity|exact Ha|apply (proj1 HN); assumption]. }
      assert (X := slope_constant S qn fd cells G cl i d (E a) Hc Hi Hdd). unfold slope in X. rewrite X. ring.
    - intros f p Hf Hp _ <-. assert (B := co_face _ _ _ Co f p Hf Hp). rewrite (HF a (dof_index S cl (fd f p))); [|exact Ha|apply (proj1 HN); assumption].
      unfold behind. destruct (at_face S cl f) as [c' f'|b] eqn:Ef.
      + destruct (gm_conforming _ _ _ _ G cl f c' f' Hc Hf Ef) as (Hc' & Hf' & _). apply HF; [exact Ha|]. apply (proj1 HN); [exact Hc'|apply (co_face _ _ _ Co); assumption].
      + destruct (velocity b) as [u|] eqn:Eu; [|elim (Sup cl f b Hc Hf Ef Eu)]. rewrite HF.
        * rewrite <- (Hwall cl f b u p a Hc Hf Hp Ha Ef Eu). ring.
        * apply opposite_in. exact Ha.
        * apply (proj1 HN); assumption.
  Qed.
  Lemma uniform_stream h f : uniform f -> uniform (dg_stream N (st_Q st) s h f).
  Proof.
    intros U n i Hn Hi. destruct i as [|b]; [apply U; assumption|]. unfold dg_stream.
    destruct (proj1 (rk5_runs (D * N) h (f_stream N f) (flat_matrix N s) (flat_vector N s) 0 h) ltac:(auto)) as [r Er]. rewrite Er.
    assert (Z : SpecTimeIntegration.steady (D * N) (flat_matrix N s) (flat_vector N s) (f_stream N f)).
    { intros j Hr. rewrite flat_rhs by lia. assert (Hm := Nat.mod_upper_bound j N ltac:(lia)). destruct (proj2 HN (j mod N)%nat Hm) as (cl & i & Hc & Hi' & <-).
      assert (Hb : (j / N < D)%nat) by (apply Nat.div_lt_upper_bound; lia).
      apply uniform_rate; [|exact Hc|exact Hi'|lia]. intros b' n' Hb' Hn'. unfold unflat. destruct (Nat.ltb_spec (b' - 1) D); [|lia]. destruct (Nat.ltb_spec n' N); [|lia]. cbn [andb].
      unfold f_stream. destruct (decode N HN0 (b' - 1)%nat n' Hn') as [-> ->]. replace (Datatypes.S (b' - 1)) with b' by lia. apply U; lia. }
    rewrite (rk5_steady _ _ _ _ _ _ _ _ Z Er) by nia.
    unfold f_stream. destruct (decode N HN0 b n Hn) as [-> ->]. apply U; assumption.
  Qed.
  Definition at_rest (x : fields) : Prop := uniform (fl_f x) /\ forall n, (n < N)%nat -> fl_rho x n = rho /\ forall a, (a < st_D st)%nat -> fl_u x n a = v a.
  Lemma uniform_node f u : (forall i, (i < st_Q st)%nat -> f i = E i) ->
    exists out, collide_node k q (make_genData cfg None st scaling nu dt) false f u = Ok out /\ (forall i, (i < st_Q st)%nat -> no_f out i = E i) /\ no_rho out = rho /\
      forall a, (a < st_D st)%nat -> no_u out a = v a.
  Proof.
    intros Hf. destruct (collide_fixes k q cfg t scaling nu dt rho v f u Hcf Hv Hq Hrun) as (out & A & B & C & F).
    - lra.
    - destruct HE as (g & Eg & Hg). exists g. split; [exact Eg|]. intros i Hi. rewrite Hf by exact Hi. apply Hg. exact Hi.
    - exists out. split; [exact A|]. split; [intros i Hi; rewrite B by exact Hi; apply Hf; exact Hi|]. split; assumption.
  Qed.
  Lemma uniform_collide x : uniform (fl_f x) -> exists y, so_collide o x = Ok y /\ at_rest y.
  Proof.
    intros U. cbn [dg_ops cfd_ops so_collide]. set (gd := make_genData cfg None st scaling nu dt).
    destruct (all_runs k q gd false nodes x Hnd) as [y Ey].
    - intros ->. apply (proj2 (Hown 0%nat)). exact HN0.
    - intros n Hn. apply Hown in Hn. destruct (uniform_node (fl_f x n) (fl_u x n)) as (out & A & _ & B & _); [intros i Hi; apply U; assumption|]. exists out. split; [exact A|]. rewrite B. exact Hrho.
    - exists y. split; [exact Ey|]. destruct (all_node_by_node k q gd false nodes x y Hnd Ey) as [A _].
      assert (Z : forall n, (n < N)%nat -> (forall i, (i < st_Q st)%nat -> fl_f y n i = E i) /\ fl_rho y n = rho /\ forall a, (a < st_D st)%nat -> fl_u y n a = v a).
      { intros n Hn. destruct (A n (proj2 (Hown n) Hn)) as (out & Eo & Ef & Er & Eu). destruct (uniform_node (fl_f x n) (fl_u x n)) as (out' & Eo' & B & C & F); [intros i Hi; apply U; assumption|].
        fold gd in Eo'. rewrite Eo in Eo'. injection Eo' as ->. rewrite Ef, Er, Eu. auto. }
      split; [intros n i Hn Hi; apply Z; assumption|]. intros n Hn. apply Z. exact Hn.
  Qed.
  Lemma uniform_keeps : keeps o (fun x => uniform (fl_f x)).
  Proof.
    repeat split.
    - intros x U. destruct (uniform_collide x U) as (y & Ey & R). exists y. split; [exact Ey|apply R].
    - intros h x U. cbn [dg_ops cfd_ops so_advect fl_f]. apply uniform_stream. exact U.
    - intros h x U. cbn [dg_ops cfd_ops so_integrate fst fl_f]. apply uniform_stream. exact U.
    - intros x U. cbn [dg_ops cfd_ops so_filter fl_f]. apply Hfilt. exact U.
    - intros p x [].
  Qed.
  Lemma evolve_uniform m : forall i tm x y, at_rest x -> evolve c o m i tm dt x = Ok y -> at_rest y.
  Proof.
    destruct uniform_keeps as (K1 & K2 & K3 & K4 & _).
    induction m as [|m IH]; intros i tm x y U Ee; cbn [evolve] in Ee.
    - injection Ee as <-. exact U.
    - assert (X : uniform (fl_f (filtered c o (Datatypes.S i) (advected c o tm dt x)))).
      { assert (Y : uniform (fl_f (advected c o tm dt x))). { unfold advected. destruct (rc_semi_lagrangian c); [apply K2|apply K3]; apply U. }
        unfold filtered. destruct (rc_filtering c && _)%bool; [apply K4|]; exact Y. }
      destruct (uniform_collide _ X) as (z & Ez & Rz). rewrite Ez in Ee. cbn [obind] in Ee. exact (IH _ _ _ _ Rz Ee).
  Qed.
  Lemma simulated_uniform s0 : valid_intervals c -> rc_compressible c = false -> sv_dt s0 = dt -> uniform (fl_f (sv_x s0)) ->
    exists s1 tr, run c o (Datatypes.S (rc_steps c - sv_start s0)) s0 = Some (Ok (s1, tr)) /\ at_rest (sv_x s1) /\
      forall m stat d, In (EvCheckpoint m stat d) tr -> uniform d.
  Proof.
    intros Hvi Hnc Edt U. destruct (run_runs c o _ Hvi uniform_keeps s0 Hnc U) as (s1 & tr & Er & _). exists s1, tr. split; [exact Er|].
    destruct (run_evolution c o _ s0 s1 tr (or_intror (fun _ _ => eq_refl)) Hnc Er) as (y & Hy & Hev & HF). destruct (uniform_collide _ U) as (y' & Ey' & Ry). rewrite Ey' in Hy. injection Hy as ->.
    rewrite Edt in *. split; [exact (evolve_uniform _ _ _ _ _ Ry Hev)|]. intros m stat d Hin. destruct (HF m stat d Hin) as (_ & _ & _ & _ & xn & Hx & ->).
    apply (evolve_uniform _ _ _ _ _ Ry) in Hx. apply Hx.
  Qed.
End Uniform.

(** ** In the form of the theorems *)
Lemma every_collision k q cfg force t scaling nu dt : closed_form t = true -> valid_setup cfg scaling nu dt -> carries_momentum q = true -> force_handled cfg force ->
  forall f u out, collide_node k q (make_genData cfg force (stencil_of t scaling) scaling nu dt) false f u = Ok out ->
  changes_momentum_by (stencil_of t scaling) f (no_f out) (kick k cfg (nu / (dt * st_cs2 (stencil_of t scaling)) + 1/2) dt force).
Proof.
  intros Hc Hv Hq Hf f u out E. destruct force as [F|].
  - destruct Hf as (Hne & [Hm|Hm]).
    + destruct (shifting_ok k q cfg t scaling nu dt F f u out Hc Hv Hq Hne Hm E) as [[A B] _]. split; [exact A|]. intros a Ha. rewrite B by exact Ha. unfold kick. rewrite Hm. reflexivity.
    + destruct (exact_ok k q cfg t scaling nu dt F f u out Hc Hv Hq Hne Hm E) as [[A B] _]. split; [exact A|]. intros a Ha. rewrite B by exact Ha. unfold kick. rewrite Hm. reflexivity.
  - destruct (collide_conserves k q cfg t scaling nu dt f u out Hc) as [[A B] _]; [destruct Hv; lra|exact Hq|exact E|]. split; [exact A|]. intros a Ha. rewrite B by exact Ha. cbn. ring.
Qed.
Lemma setup_scale cfg scaling nu dt : valid_setup cfg scaling nu dt -> scaling <> 0.
Proof. intros (H & _). lra. Qed.
Lemma walls_or_not {cell} (S : space cell) velocity cells : no_walls S cells -> supported S velocity cells.
Proof. intros Nw c f b Hc Hf E. destruct (Nw c f Hc Hf) as (c' & f' & E'). congruence. Qed.

Section Whole.
  Context {cell : Type} (S : space cell) (qn : nat -> nat) (fd : nat -> nat -> nat) (t : StencilType) (scaling : R)
          (velocity : nat -> option (point -> point)) (cells : list cell) (N : nat) (s : system)
          (k : T_collision) (q : T_equilibrium) (cfg : collision_config) (force : option (nat -> R)) (nu dt : R) (nodes : list nat) (filt : (nat -> nat -> R) -> nat -> nat -> R) (c : run_config).
  Notation st := (stencil_of t scaling).
  Hypothesis Hd : sp_dim S = st_D st.
  Hypothesis Hcf : closed_form t = true.
  Hypothesis G : good_mesh S qn fd cells.
  Section Mass.
    Hypothesis Sup : supported S velocity cells.
    Hypothesis HN : numbers S cells N.
    Hypothesis Es : reassemble S st false velocity cells empty_system = Ok s.
    Hypothesis Hv : valid_setup cfg scaling nu dt.
    Hypothesis Hq : carries_momentum q = true.
    Hypothesis Hfo : force_handled cfg force.
    Hypothesis Hnd : NoDup nodes.
    Hypothesis Hown : forall n, (n < N)%nat -> In n nodes.
    Hypothesis Hsl : rc_semi_lagrangian c = false.
    Hypothesis Hfl : rc_filtering c = false.
    Hypothesis Hnc : rc_compressible c = false.
    Notation content := (content S qn cells).
    Notation o := (dg_ops k q (make_genData cfg force st scaling nu dt) st scaling nodes N s filt).
    Lemma whole_mass : exists cst, Rabs (cst - 1) <= / 100000000000000000000 /\ forall fuel s0 s1 tr, sv_dt s0 = dt -> run c o fuel s0 = Some (Ok (s1, tr)) ->
      content (fun n => mass st (fl_f (sv_x s1) n)) = content (fun n => mass st (fl_f (sv_x s0) n)) - INR (sv_i s1 - sv_start s0) * (cst * dt * wall_flux S velocity cells) /\
      forall m stat d, In (EvCheckpoint m stat d) tr ->
        content (fun n => mass st (d n)) = content (fun n => mass st (fl_f (sv_x s0) n)) - INR (m - sv_start s0) * (cst * dt * wall_flux S velocity cells).
    Proof.
      exact (simulated_mass S qn fd t scaling velocity cells N Hd (setup_scale _ _ _ _ Hv) Hcf G Sup HN s Es k q _ nodes filt c dt Hnd Hown Hsl Hfl Hnc _ (every_collision k q cfg force t scaling nu dt Hcf Hv Hq Hfo)).
    Qed.
    Lemma closed_mass : no_walls S cells \/ resting_walls S velocity cells -> forall fuel s0 s1 tr, sv_dt s0 = dt -> run c o fuel s0 = Some (Ok (s1, tr)) ->
      content (fun n => mass st (fl_f (sv_x s1) n)) = content (fun n => mass st (fl_f (sv_x s0) n)) /\
      forall m stat d, In (EvCheckpoint m stat d) tr -> content (fun n => mass st (d n)) = content (fun n => mass st (fl_f (sv_x s0) n)).
    Proof.
      intros W. assert (Z : wall_flux S velocity cells = 0).
      { unfold wall_flux. apply total_zero. intros cl Hc. apply sumf_zero. intros f Hf. destruct (at_face S cl f) as [c' f'|b] eqn:Ef; [reflexivity|].
        destruct W as [Nw|Rw]; [destruct (Nw cl f Hc Hf) as (? & ? & X); congruence|]. destruct (velocity b) as [u|] eqn:Eu; [|reflexivity].
        apply sumf_zero. intros p _. rewrite sumf_zero; [ring|]. intros a _. rewrite (Rw cl f b u _ _ Hc Hf Ef Eu). ring. }
      intros fuel s0 s1 tr Edt E. destruct whole_mass as (cst & _ & T). destruct (T fuel s0 s1 tr Edt E) as [A B]. rewrite Z in A, B. split; [lra|].
      intros m stat d Hin. specialize (B m stat d Hin). lra.
    Qed.
  End Mass.
  Hypothesis Nw : no_walls S cells.
  Hypothesis HN : numbers S cells N.
  Hypothesis Es : reassemble S st false velocity cells empty_system = Ok s.
  Hypothesis Hv : valid_setup cfg scaling nu dt.
  Hypothesis Hq : carries_momentum q = true.
  Hypothesis Hfo : force_handled cfg force.
  Hypothesis Hnd : NoDup nodes.
  Hypothesis Hown : forall n, (n < N)%nat -> In n nodes.
  Hypothesis Hsl : rc_semi_lagrangian c = false.
  Hypothesis Hfl : rc_filtering c = false.
  Hypothesis Hnc : rc_compressible c = false.
  Notation content := (content S qn cells).
  Notation tau := (nu / (dt * st_cs2 st) + 1/2).
  Notation o := (dg_ops k q (make_genData cfg force st scaling nu dt) st scaling nodes N s filt).
  Lemma whole_momentum : forall fuel s0 s1 tr, sv_dt s0 = dt -> run c o fuel s0 = Some (Ok (s1, tr)) -> forall a, (a < st_D st)%nat ->
    content (fun n => momentum st (fl_f (sv_x s1) n) a)
    = content (fun n => momentum st (fl_f (sv_x s0) n) a) + (INR (sv_i s1 - sv_start s0) + 1) * (kick k cfg tau dt force a * content (fun _ => 1)) /\
    forall m stat d, In (EvCheckpoint m stat d) tr ->
      content (fun n => momentum st (d n) a)
      = content (fun n => momentum st (fl_f (sv_x s0) n) a) + (INR (m - sv_start s0) + 1) * (kick k cfg tau dt force a * content (fun _ => 1)).
  Proof.
    exact (simulated_momentum S qn fd t scaling velocity cells N Hd (setup_scale _ _ _ _ Hv) G (walls_or_not S velocity cells Nw) HN s Es k q _ nodes filt c dt Hnd Hown Hsl Hfl Hnc _
             (every_collision k q cfg force t scaling nu dt Hcf Hv Hq Hfo) Nw).
  Qed.
  Lemma restarted_momentum : forall fuel x0 s1 tr m stat d fuel' s2 tr',
    run c o fuel (fresh x0 dt) = Some (Ok (s1, tr)) -> In (EvCheckpoint m stat d) tr ->
    run c o fuel' (restarted (printed stat) (restored_fields st d) dt) = Some (Ok (s2, tr')) -> forall a, (a < st_D st)%nat ->
    content (fun n => momentum st (fl_f (sv_x s2) n) a)
    = content (fun n => momentum st (fl_f x0 n) a) + (INR (sv_i s2) + 2) * (kick k cfg tau dt force a * content (fun _ => 1)).
  Proof.
    intros fuel x0 s1 tr m stat d fuel' s2 tr' E Hin E' a Ha.
    destruct (whole_momentum fuel (fresh x0 dt) s1 tr eq_refl E a Ha) as [_ B]. specialize (B m stat d Hin).
    destruct (whole_momentum fuel' (restarted (printed stat) (restored_fields st d) dt) s2 tr' eq_refl E' a Ha) as [A _].
    destruct (run_evolution c o _ _ _ _ (or_intror (fun _ _ => eq_refl)) Hnc E) as (y & _ & _ & HF). destruct (HF m stat d Hin) as (Em & _).
    destruct (run_evolve c o _ _ _ _ (or_intror (fun _ _ => eq_refl)) Hnc E') as (y' & _ & Hle & _).
    cbn [restarted printed restored_fields fresh sv_x fl_f sv_start cs_iteration] in A, B, Hle. rewrite Em in A, Hle. rewrite A, B, (minus_INR (sv_i s2) m Hle), Nat.sub_0_r. ring.
  Qed.
End Whole.

Lemma whole_uniform (cell : Type) (S : space cell) qn fd t scaling velocity cells N s k q cfg nu dt nodes filt c rho v E s0 :
  sp_dim S = st_D (stencil_of t scaling) -> closed_form t = true -> good_mesh S qn fd cells -> supported S velocity cells -> numbers S cells N ->
  let st := stencil_of t scaling in
  reassemble S st false velocity cells empty_system = Ok s ->
  valid_setup cfg scaling nu dt -> carries_momentum q = true -> runs_on k t cfg = true ->
  NoDup nodes -> (forall n, In n nodes <-> (n < N)%nat) -> (0 < N)%nat ->
  1 / 10 ^ 10 < rho -> equilibrium_populations q cfg st scaling rho v 1 E ->
  (forall cl f b u p a, In cl cells -> (f < faces_per_cell S)%nat -> (p < n_face_points S)%nat -> (1 <= a < st_Q st)%nat ->
     at_face S cl f = Outside b -> velocity b = Some u -> E a - E (opposite st a) = wall_shift S st (u (face_point S cl f p)) a) ->
  let uniform f := forall n i, (n < N)%nat -> (i < st_Q st)%nat -> f n i = E i in
  (forall f, uniform f -> uniform (filt f)) ->
  valid_intervals c -> rc_compressible c = false -> sv_dt s0 = dt -> uniform (fl_f (sv_x s0)) ->
  exists s1 tr, run c (dg_ops k q (make_genData cfg None st scaling nu dt) st scaling nodes N s filt) (Datatypes.S (rc_steps c - sv_start s0)) s0 = Some (Ok (s1, tr)) /\
    uniform (fl_f (sv_x s1)) /\ (forall n, (n < N)%nat -> fl_rho (sv_x s1) n = rho /\ forall a, (a < st_D st)%nat -> fl_u (sv_x s1) n a = v a) /\
    forall m stat d, In (EvCheckpoint m stat d) tr -> uniform d.
Proof.
  intros Hd Hcf G Sup HN st Es Hv Hq Hrun Hnd Hown HN0 Hrho HE Hwall uni Hfilt Hvi Hnc Edt U.
  destruct (simulated_uniform S qn fd t scaling velocity cells N Hd Hcf G Sup HN s Es k q cfg nu dt nodes filt c Hv Hq Hrun Hnd Hown HN0 rho v E Hrho HE Hwall Hfilt s0 Hvi Hnc Edt U) as (s1 & tr & A & [B C] & F).
  exists s1, tr. auto.
Qed.
