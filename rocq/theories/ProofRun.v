(** Lemmas about the time loop. *)
From Verif Require Import Prelude ModelConfigNames ModelRun SpecRun.
Open Scope R_scope.

Section Run.
  Context {X D : Type}.
  Variables (c : run_config) (o : solver_ops X D).
  Notation solver := (solver X).
  Notation event := (event D).

  (** ** Inversion of the single steps *)
  Lemma collide_ok : forall (s s' : solver) ev, collide o s = Ok (s', ev) ->
    exists x, so_collide o (sv_x s) = Ok x /\ s' = set_x s x /\ ev = [EvCollide (sv_i s)].
  Proof.
    unfold collide; intros s s' ev. destruct (so_collide o (sv_x s)) as [x| |]; simpl; intro E; try discriminate.
    inversion E; eauto.
  Qed.

  Lemma filter_ok : forall (s s' : solver) ev, filter c o s = Ok (s', ev) ->
    (s' = s /\ ev = []) \/ (s' = set_x s (so_filter o (sv_x s)) /\ ev = [EvFilter (sv_i s)]).
  Proof.
    unfold filter; intros s s' ev. destruct (rc_filtering c); [|intro E; inversion E; auto].
    destruct (rc_filter_interval c) as [|k]; cbn [cmod obind]; [discriminate|].
    destruct (Nat.eqb _ 0); intro E; inversion E; auto.
  Qed.

  Definition quiet (e : event) : bool :=
    match e with EvMesh _ | EvSolution _ | EvTable _ | EvFilter _ => true | _ => false end.

  Definition cp_event (s : solver) : event :=
    EvCheckpoint (sv_i s)
      {| cs_time := sv_time s; cs_iteration := sv_i s; cs_scaling := so_scaling o; cs_order := rc_order c |}
      (so_data o (sv_x s)).

  Definition cp_cond (s : solver) (i : nat) (fin : bool) : bool :=
    (negb (rc_output_off c && negb (rc_compressible c)) &&
     ((Nat.eqb (i mod rc_checkpoint_interval c) 0 || fin) && switched_on (rc_checkpoint_interval c) && negb (Nat.eqb (sv_start s) (sv_i s))))%bool.

  Lemma output_ok : forall (s : solver) i fin ev, output c o s i fin = Ok ev ->
    exists files, forallb quiet files = true /\
      ev = EvOutput i fin :: files ++ (if cp_cond s i fin then [cp_event s] else []).
  Proof.
    unfold output; intros s i fin ev.
    set (files := if rc_output_off c then Ok [] else _).
    assert (Hf : forall l, files = Ok l -> forallb quiet l = true).
    { intros l E; subst files. destruct (rc_output_off c); [inversion E; reflexivity|].
      destruct (rc_solution_interval c) as [|k1]; cbn [cmod obind] in E; [discriminate|].
      destruct (rc_table_interval c) as [|k2]; cbn [cmod obind] in E; [discriminate|].
      inversion E; subst l; clear E.
      rewrite !forallb_app. apply andb_true_intro; split; [|apply andb_true_intro; split].
      - destruct (_ && _)%bool; reflexivity.
      - destruct (_ || _)%bool; reflexivity.
      - destruct (Nat.eqb _ 0); reflexivity. }
    destruct files as [l| |]; cbn [obind]; try discriminate.
    specialize (Hf l eq_refl).
    unfold cp_cond. destruct (rc_output_off c && negb (rc_compressible c))%bool; cbn [negb andb obind].
    - intro E; inversion E. exists l; split; auto.
    - destruct (rc_checkpoint_interval c) as [|k]; cbn [cmod obind]; [discriminate|].
      destruct (_ && _)%bool; cbn [obind]; intro E; inversion E; exists l; split; auto.
  Qed.

  Lemma output_runs : forall (s : solver) i fin, valid_intervals c -> exists ev, output c o s i fin = Ok ev.
  Proof.
    intros s i fin [H1 [H2 [H3 H4]]]. unfold output.
    destruct (rc_solution_interval c) as [|k1]; [lia|].
    destruct (rc_table_interval c) as [|k2]; [lia|].
    destruct (rc_checkpoint_interval c) as [|k3]; [lia|].
    cbn [cmod obind].
    destruct (rc_output_off c); cbn [obind andb]; destruct (negb (rc_compressible c)); cbn [obind andb];
      try (eexists; reflexivity);
      match goal with |- context [if ?b then Ok [EvCheckpoint _ _ _] else _] => destruct b; cbn [obind]; eexists; reflexivity end.
  Qed.

  Lemma filter_runs : forall s : solver, valid_intervals c -> exists r, filter c o s = Ok r.
  Proof.
    intros s [H1 [H2 [H3 H4]]]. unfold filter. destruct (rc_filtering c); [|eauto].
    destruct (rc_filter_interval c) as [|k]; [lia|]. cbn [cmod obind]. destruct (Nat.eqb _ 0); eauto.
  Qed.

  Definition same_but_x (s s' : solver) : Prop :=
    sv_start s' = sv_start s /\ sv_i s' = sv_i s /\ sv_time s' = sv_time s /\ sv_dt s' = sv_dt s /\
    sv_tmp_u s' = sv_tmp_u s /\ sv_tmp_rho s' = sv_tmp_rho s /\ sv_res_u s' = sv_res_u s /\ sv_res_rho s' = sv_res_rho s.

  Lemma same_set_x : forall s x, same_but_x s (set_x s x).
  Proof. intros; unfold same_but_x; simpl; repeat split. Qed.

  Lemma iterate_ok : forall s s2 ev, iterate c o s = Ok (s2, ev) ->
    exists ev1 evf sf x,
      output c o s (sv_i s) false = Ok ev1 /\
      filter c o (stream c o (next_i s)) = Ok (sf, evf) /\
      so_collide o (sv_x sf) = Ok x /\
      s2 = set_x sf (fold_left (fun x p => p x) (so_processors o) x) /\
      (evf = [] \/ evf = [EvFilter (S (sv_i s))]) /\
      ev = ev1 ++ [EvStream (sv_i s) (sv_time s)] ++ evf ++ [EvCollide (S (sv_i s))] /\
      same_but_x (stream c o (next_i s)) s2.
  Proof.
    unfold iterate; intros s s2 ev.
    destruct (output c o s (sv_i s) false) as [ev1| |] eqn:Eo; cbn [obind]; try discriminate.
    destruct (filter c o (stream c o (next_i s))) as [[sf evf]| |] eqn:Ef; cbn [obind fst snd]; try discriminate.
    destruct (collide o sf) as [[sc evc]| |] eqn:Ec; cbn [obind fst snd]; try discriminate.
    destruct (collide_ok _ _ _ Ec) as [x [Hx [Hsc Hev]]].
    intro E; inversion E; subst; clear E.
    assert (Hst : sv_i (stream c o (next_i s)) = S (sv_i s)) by (unfold stream; destruct (rc_semi_lagrangian c); reflexivity).
    destruct (filter_ok _ _ _ Ef) as [[Hf He]|[Hf He]]; subst sf evf; exists ev1; do 3 eexists; repeat split; eauto.
    - simpl. rewrite Hst. reflexivity.
    - right. rewrite Hst. reflexivity.
    - simpl. rewrite Hst. reflexivity.
  Qed.

  Lemma stop_cases : forall s b s' ev, stopConditionMet c o s = (b, s', ev) ->
    sv_start s' = sv_start s /\ sv_i s' = sv_i s /\ sv_time s' = sv_time s /\ sv_dt s' = sv_dt s /\ sv_x s' = sv_x s /\
    ((b = true /\ s' = s /\ ev = [] /\ ((rc_steps c <= sv_i s)%nat \/ rc_end_time c <= sv_time s)) \/
     ((sv_i s < rc_steps c)%nat /\ sv_time s < rc_end_time c /\
      ((b = false /\ s' = s /\ ev = [] /\ (sv_i s mod 100 <> 0)%nat) \/
       ((sv_i s mod 100 = 0)%nat /\ s' = calculateResiduals o s /\
        ev = [EvResidual (sv_i s) (so_velocity o (sv_x s)) (sv_res_u s')] /\
        (b = true <-> sv_res_u s' < rc_threshold c))))).
  Proof.
    unfold stopConditionMet; intros s b s' ev.
    destruct (Nat.leb (rc_steps c) (sv_i s)) eqn:E1.
    { apply Nat.leb_le in E1. intro E; inversion E; subst. repeat split. left; auto. }
    apply Nat.leb_gt in E1.
    destruct (Rle_lt_dec (rc_end_time c) (sv_time s)) as [E2|E2].
    { intro E; inversion E; subst. repeat split. left; auto. }
    destruct (Nat.eqb (sv_i s mod 100) 0) eqn:E3.
    - apply Nat.eqb_eq in E3. intro E.
      set (s1 := calculateResiduals o s) in *.
      pose proof (f_equal (fun p => fst (fst p)) E) as Eb. pose proof (f_equal (fun p => snd (fst p)) E) as Es.
      pose proof (f_equal snd E) as Ee. cbn [fst snd] in Eb, Es, Ee. clear E. subst s'.
      assert (Hs1 : sv_start s1 = sv_start s /\ sv_i s1 = sv_i s /\ sv_time s1 = sv_time s /\ sv_dt s1 = sv_dt s /\ sv_x s1 = sv_x s)
        by (subst s1; repeat split).
      destruct Hs1 as [H1 [H2 [H3 [H4 H5]]]]. repeat split; auto. right. split; [auto|split; [auto|right]].
      subst ev. split; [auto|split; [reflexivity|split; [reflexivity|]]].
      subst b. destruct (Rlt_dec (sv_res_u s1) (rc_threshold c)) as [Hr|Hr]; split; intro Hq; try assumption; try reflexivity; [discriminate Hq|contradiction].
    - apply Nat.eqb_neq in E3. intro E; inversion E; subst. repeat split. right. split; [auto|split; [auto|left; auto]].
  Qed.

  (** ** Invariant principle for the loop *)
  Lemma loop_inv : forall I : solver -> list event -> Prop,
    (forall s tr s1 ev1 s2 ev2, I s tr -> stopConditionMet c o s = (false, s1, ev1) ->
       iterate c o s1 = Ok (s2, ev2) -> I s2 (tr ++ ev1 ++ ev2)) ->
    forall fuel s tr s' tr', I s tr -> loop c o fuel s tr = Some (Ok (s', tr')) ->
    exists s0 tr0 ev0, I s0 tr0 /\ stopConditionMet c o s0 = (true, s', ev0) /\ tr' = tr0 ++ ev0.
  Proof.
    intros I Hstep fuel; induction fuel as [|fuel IH]; intros s tr s' tr' HI; simpl; [discriminate|].
    destruct (stopConditionMet c o s) as [[b s1] ev1] eqn:Es; cbn [fst snd].
    destruct b.
    - intro E; inversion E; subst. exists s, tr, ev1; auto.
    - destruct (iterate c o s1) as [[s2 ev2]| |] eqn:Ei; try discriminate.
      intro E. eapply IH; [|exact E]. eapply Hstep; eauto.
  Qed.

  (** ** The loop ends *)
  Lemma loop_ends : forall fuel s tr, (rc_steps c - sv_i s < fuel)%nat -> loop c o fuel s tr <> None.
  Proof.
    induction fuel as [|fuel IH]; intros s tr H; [lia|]. simpl.
    destruct (stopConditionMet c o s) as [[b s1] ev1] eqn:Es; cbn [fst snd].
    destruct (stop_cases _ _ _ _ Es) as [_ [Hi [_ [_ [_ Hc]]]]].
    destruct b; [discriminate|].
    assert (Hlt : (sv_i s < rc_steps c)%nat) by (destruct Hc as [[? _]|[? _]]; [discriminate|assumption]).
    destruct (iterate c o s1) as [[s2 ev2]| |] eqn:Ei; try discriminate.
    destruct (iterate_ok _ _ _ Ei) as (e1 & ef & sf & x & _ & _ & _ & _ & _ & _ & Hsame).
    destruct Hsame as [_ [Hi2 _]]. apply IH. rewrite Hi2.
    assert (sv_i (stream c o (next_i s1)) = S (sv_i s1)) as -> by (unfold stream; destruct (rc_semi_lagrangian c); reflexivity).
    lia.
  Qed.

  (** ** Start of the run *)
  Lemma init_same : forall s s' n, initializeDistributions_compressible c o s = Ok (s', n) ->
    sv_start s' = sv_start s /\ sv_i s' = sv_i s /\ sv_time s' = sv_time s /\ sv_res_u s' = sv_res_u s /\
    sv_tmp_u s' = sv_tmp_u s /\ (constant_step c o -> sv_dt s' = sv_dt s).
  Proof.
    intros s s' n. unfold initializeDistributions_compressible.
    assert (L : forall k s, sv_start (init_loop_compressible c o k s) = sv_start s /\ sv_i (init_loop_compressible c o k s) = sv_i s /\
      sv_res_u (init_loop_compressible c o k s) = sv_res_u s /\ sv_tmp_u (init_loop_compressible c o k s) = sv_tmp_u s /\
      (constant_step c o -> sv_dt (init_loop_compressible c o k s) = sv_dt s)).
    { induction k as [|k IHk]; intro s1; [repeat split|]. cbn [init_loop_compressible]. specialize (IHk (init_step c o s1)).
      destruct IHk as [A [B [C [E F]]]]. rewrite A, B, C, E.
      assert (G : sv_start (init_step c o s1) = sv_start s1 /\ sv_i (init_step c o s1) = sv_i s1 /\ sv_res_u (init_step c o s1) = sv_res_u s1 /\
                  sv_tmp_u (init_step c o s1) = sv_tmp_u s1) by (unfold init_step, stream; destruct (rc_semi_lagrangian c); repeat split).
      destruct G as [-> [-> [-> ->]]]. repeat split. intro H. rewrite (F H). unfold constant_step in H. unfold init_step, stream.
      destruct (rc_semi_lagrangian c); [reflexivity|]. destruct H as [H|H]; [discriminate|]. simpl. apply H. }
    destruct (rc_init c); intro E; inversion E; subst; clear E; try (repeat split; fail).
    destruct (L (rc_init_steps c) (set_x s (so_set_equilibrium o (sv_x s)))) as [A [B [C [E F]]]].
    simpl in *. repeat split; auto.
  Qed.

  Lemma run_start : forall fuel s0 s tr, run c o fuel s0 = Some (Ok (s, tr)) ->
    exists s1 s2 s4 trl ev', collide o s1 = Ok (s2, [EvCollide (sv_start s0)]) /\
      sv_start s1 = sv_start s0 /\ sv_i s1 = sv_start s0 /\ sv_time s1 = sv_time s0 /\ sv_res_u s1 = sv_res_u s0 /\ sv_tmp_u s1 = sv_tmp_u s0 /\
      (constant_step c o -> sv_dt s1 = sv_dt s0) /\
      (rc_compressible c = false -> sv_x s1 = sv_x s0 /\ sv_dt s1 = sv_dt s0) /\
      same_but_x s1 s2 /\
      loop c o fuel s2 [EvCollide (sv_start s0)] = Some (Ok (s4, trl)) /\
      output c o s4 (sv_i s4) true = Ok ev' /\ s = s4 /\ tr = trl ++ ev'.
  Proof.
    intros fuel s0 s tr. unfold run. cbv zeta.
    set (s1' := {| sv_start := sv_start s0 |}).
    set (m := if (rc_compressible c && Nat.leb (sv_i s1') 1)%bool then _ else _).
    assert (Hm : forall s1 n, m = Ok (s1, n) -> sv_start s1 = sv_start s0 /\ sv_i s1 = sv_start s0 /\ sv_time s1 = sv_time s0 /\
      sv_res_u s1 = sv_res_u s0 /\ sv_tmp_u s1 = sv_tmp_u s0 /\
      (constant_step c o -> sv_dt s1 = sv_dt s0) /\
      (rc_compressible c = false -> sv_x s1 = sv_x s0 /\ sv_dt s1 = sv_dt s0)).
    { intros s1 n Hm. subst m. destruct (rc_compressible c) eqn:Ec; cbn [andb] in Hm.
      - destruct (Nat.leb (sv_i s1') 1).
        + destruct (init_same _ _ _ Hm) as [A [B [C [E [F G]]]]]. repeat split; auto; discriminate.
        + inversion Hm; subst. repeat split; auto.
      - inversion Hm; subst. repeat split; auto. }
    destruct m as [[s1 n]| |]; cbn [obind fst snd]; try discriminate.
    destruct (Hm s1 n eq_refl) as [A [B [C [E [F [G H]]]]]]. clear Hm.
    destruct (collide o s1) as [[s2 ev]| |] eqn:Ec; try discriminate.
    destruct (collide_ok _ _ _ Ec) as [x [Hx [Hs2 Hev]]]. rewrite B in Hev. subst ev.
    destruct (loop c o fuel s2 [EvCollide (sv_start s0)]) as [[[s4 trl]| |]|] eqn:El; try discriminate.
    destruct (output c o s4 (sv_i s4) true) as [ev'| |] eqn:Eo; try discriminate.
    intro R; inversion R; subst s tr. exists s1, s2, s4, trl, ev'. repeat split; auto.
    - exact (proj1 (H H0)).
    - exact (proj2 (H H0)).
    - subst s2; apply same_set_x.
    - subst s2; apply same_set_x.
    - subst s2; apply same_set_x.
    - subst s2; apply same_set_x.
    - subst s2; apply same_set_x.
    - subst s2; apply same_set_x.
    - subst s2; apply same_set_x.
    - subst s2; apply same_set_x.
  Qed.

  Lemma run_ends : forall s0, run c o (S (rc_steps c - sv_start s0)) s0 <> None.
  Proof.
    intro s0. unfold run. cbv zeta.
    set (s1' := {| sv_start := sv_start s0 |}).
    set (m := if (rc_compressible c && Nat.leb (sv_i s1') 1)%bool then _ else _).
    assert (Hm : forall s1 n, m = Ok (s1, n) -> sv_i s1 = sv_start s0).
    { intros s1 n Hm. subst m. destruct (rc_compressible c && Nat.leb (sv_i s1') 1)%bool.
      - destruct (init_same _ _ _ Hm) as [_ [B _]]. exact B.
      - inversion Hm; reflexivity. }
    destruct m as [[s1 n]| |]; cbn [obind fst snd]; try discriminate.
    specialize (Hm s1 n eq_refl).
    destruct (collide o s1) as [[s2 ev]| |] eqn:Ec; try discriminate.
    destruct (collide_ok _ _ _ Ec) as [x [Hx [Hs2 Hev]]].
    assert (L : loop c o (S (rc_steps c - sv_start s0)) s2 ev <> None).
    { apply loop_ends. subst s2. simpl. rewrite Hm. lia. }
    destruct (loop c o (S (rc_steps c - sv_start s0)) s2 ev) as [[[s4 trl]| |]|]; try discriminate; [|contradiction].
    destruct (output c o s4 (sv_i s4) true); discriminate.
  Qed.

  (** ** C16: the schedule *)
  Lemma steps_app : forall l l' : list event, steps_of (l ++ l') = steps_of l ++ steps_of l'.
  Proof. intros; unfold steps_of; apply flat_map_app. Qed.

  Lemma steps_quiet : forall l, forallb quiet l = true -> steps_of l = [].
  Proof.
    induction l as [|e l IH]; intro H; [reflexivity|]. simpl in H. apply andb_prop in H. destruct H as [H1 H2].
    change (step_of e ++ steps_of l = []). rewrite (IH H2). destruct e; simpl in *; try discriminate; reflexivity.
  Qed.

  Lemma steps_output : forall s i fin ev, output c o s i fin = Ok ev -> steps_of ev = [Report i fin].
  Proof.
    intros s i fin ev E. destruct (output_ok _ _ _ _ E) as [files [Hq Hev]]. subst ev.
    change (Report i fin :: steps_of (files ++ (if cp_cond s i fin then [cp_event s] else [])) = [Report i fin]).
    rewrite steps_app, (steps_quiet _ Hq). destruct (cp_cond s i fin); reflexivity.
  Qed.

  Lemma steps_stop : forall s b s' ev, stopConditionMet c o s = (b, s', ev) -> steps_of ev = [].
  Proof.
    intros s b s' ev E. destruct (stop_cases _ _ _ _ E) as (_ & _ & _ & _ & _ & [(_ & _ & -> & _)|(_ & _ & [(_ & _ & -> & _)|(_ & _ & -> & _)])]); reflexivity.
  Qed.

  Lemma stream_i : forall s, sv_i (stream c o s) = sv_i s /\ sv_start (stream c o s) = sv_start s.
  Proof. intro s; unfold stream; destruct (rc_semi_lagrangian c); split; reflexivity. Qed.

  Lemma iterate_steps : forall s s2 ev, iterate c o s = Ok (s2, ev) ->
    sv_i s2 = S (sv_i s) /\ sv_start s2 = sv_start s /\
    steps_of ev = [Report (sv_i s) false; Stream (sv_i s); Collide (S (sv_i s))].
  Proof.
    intros s s2 ev E. destruct (iterate_ok _ _ _ E) as (e1 & ef & sf & x & Ho & _ & _ & _ & Hef & Hev & Hs).
    destruct Hs as [H1 [H2 _]]. rewrite H1, H2. destruct (stream_i (next_i s)) as [-> ->].
    split; [reflexivity|split; [reflexivity|]]. subst ev. rewrite !steps_app, (steps_output _ _ _ _ Ho).
    destruct Hef as [-> | ->]; reflexivity.
  Qed.

  Lemma seq_snoc : forall a n, seq a (S n) = seq a n ++ [(a + n)%nat].
  Proof. intros; rewrite seq_S; reflexivity. Qed.

  Lemma run_steps : forall fuel s0 s tr, run c o fuel s0 = Some (Ok (s, tr)) ->
    (sv_start s0 <= sv_i s)%nat /\ sv_start s = sv_start s0 /\ steps_of tr = expected_steps (sv_start s0) (sv_i s).
  Proof.
    intros fuel s0 s tr E.
    destruct (run_start _ _ _ _ E) as (s1 & s2 & s4 & trl & ev' & Hc & Hs & Hi & _ & _ & _ & _ & _ & Hsame & Hl & Ho & -> & ->).
    set (a := sv_start s0) in *.
    set (I := fun (s : solver) (tr : list event) => sv_start s = a /\ (a <= sv_i s)%nat /\
       steps_of tr = Collide a :: flat_map (fun i => [Report i false; Stream i; Collide (S i)]) (seq a (sv_i s - a))).
    destruct (loop_inv I) with (fuel := fuel) (s := s2) (tr := [@EvCollide D a]) (s' := s4) (tr' := trl) as (s5 & tr5 & ev5 & HI & Hst & Htr).
    - intros u tr u1 ev1 u2 ev2 [I1 [I2 I3]] Hst Hit.
      destruct (stop_cases _ _ _ _ Hst) as (K1 & K2 & _).
      destruct (iterate_steps _ _ _ Hit) as (J1 & J2 & J3).
      rewrite K1 in J2. rewrite K2 in J1, J3. unfold I. rewrite J1, J2. split; [auto|split; [lia|]].
      rewrite !steps_app, I3, (steps_stop _ _ _ _ Hst), J3. cbn [app].
      replace (S (sv_i u) - a)%nat with (S (sv_i u - a)) by lia. rewrite seq_snoc, flat_map_app.
      replace (a + (sv_i u - a))%nat with (sv_i u) by lia. reflexivity.
    - destruct Hsame as [M1 [M2 _]]. unfold I. rewrite M1, M2, Hs, Hi, Nat.sub_diag. split; [auto|split; [lia|reflexivity]].
    - exact Hl.
    - destruct HI as [I1 [I2 I3]]. destruct (stop_cases _ _ _ _ Hst) as (K1 & K2 & _). rewrite K1, K2.
      split; [auto|split; [auto|]].
      subst trl. rewrite !steps_app, (steps_output _ _ _ _ Ho), (steps_stop _ _ _ _ Hst), I3, app_nil_r, K2. reflexivity.
  Qed.

  (** what the step list says about reports, streamings and collisions *)
  Lemma reports_steps : forall tr : list event,
    reports_of tr = flat_map (fun s => match s with Report i f => [(i, f)] | _ => [] end) (steps_of tr).
  Proof.
    induction tr as [|e tr IH]; [reflexivity|].
    change (reports_of (e :: tr)) with ((match e with EvOutput i f => [(i, f)] | _ => [] end) ++ reports_of tr).
    change (steps_of (e :: tr)) with (step_of e ++ steps_of tr). rewrite flat_map_app, <- IH. destruct e; reflexivity.
  Qed.
  Lemma streamings_steps : forall tr : list event,
    streamings tr = length (flat_map (fun s => match s with Stream i => [i] | _ => [] end) (steps_of tr)).
  Proof.
    unfold streamings. induction tr as [|e tr IH]; [reflexivity|].
    change (steps_of (e :: tr)) with (step_of e ++ steps_of tr). rewrite flat_map_app, app_length, <- IH.
    cbn [flat_map]. rewrite app_length. destruct e; reflexivity.
  Qed.
  Lemma collisions_steps : forall tr : list event,
    collisions tr = length (flat_map (fun s => match s with Collide i => [i] | _ => [] end) (steps_of tr)).
  Proof.
    unfold collisions. induction tr as [|e tr IH]; [reflexivity|].
    change (steps_of (e :: tr)) with (step_of e ++ steps_of tr). rewrite flat_map_app, app_length, <- IH.
    cbn [flat_map]. rewrite app_length. destruct e; reflexivity.
  Qed.

  Lemma run_reports : forall fuel s0 s tr, run c o fuel s0 = Some (Ok (s, tr)) ->
    let a := sv_start s0 in let b := sv_i s in
    (a <= b)%nat /\
    steps_of tr = expected_steps a b /\
    reports_of tr = map (fun i => (i, false)) (seq a (b - a)) ++ [(b, true)] /\
    streamings tr = (b - a)%nat /\ collisions tr = (b - a + 1)%nat.
  Proof.
    intros fuel s0 s tr E a b. destruct (run_steps _ _ _ _ E) as [H1 [H2 H3]].
    split; [exact H1|split; [exact H3|]].
    rewrite reports_steps, streamings_steps, collisions_steps, H3. fold a b. clear.
    unfold expected_steps. set (n := (b - a)%nat). clearbody n. clearbody a b. cbn [flat_map app].
    rewrite !flat_map_app, !app_length. cbn [flat_map app length].
    repeat split.
    - f_equal. revert a. induction n as [|n IH]; intro a; [reflexivity|]. cbn [seq map flat_map app]. rewrite IH. reflexivity.
    - rewrite Nat.add_0_r. revert a. induction n as [|n IH]; intro a; [reflexivity|]. cbn [seq flat_map app length]. rewrite IH. reflexivity.
    - rewrite app_length. cbn [length]. rewrite Nat.add_0_r, Nat.add_1_r. f_equal.
      revert a. induction n as [|n IH]; intro a; [reflexivity|]. cbn [seq flat_map app length]. rewrite IH. reflexivity.
  Qed.

  (** ** C17: stop conditions *)
  Lemma in_quiet : forall (l : list event) e, forallb quiet l = true -> In e l -> quiet e = true.
  Proof. intros l e H Hi. rewrite forallb_forall in H. auto. Qed.

  Lemma output_no_stream : forall s i fin ev j t, output c o s i fin = Ok ev -> ~ In (EvStream j t) ev.
  Proof.
    intros s i fin ev j t E H. destruct (output_ok _ _ _ _ E) as [files [Hq ->]].
    destruct H as [H|H]; [discriminate|]. apply in_app_or in H. destruct H as [H|H].
    - apply (in_quiet _ _ Hq) in H. discriminate.
    - destruct (cp_cond s i fin); simpl in H; [destruct H as [H|[]]; discriminate|contradiction].
  Qed.

  Lemma run_stops : forall fuel s0 s tr, run c o fuel s0 = Some (Ok (s, tr)) ->
    (forall i t, In (EvStream i t) tr -> (i < rc_steps c)%nat /\ t < rc_end_time c) /\
    ((rc_steps c <= sv_i s)%nat \/ rc_end_time c <= sv_time s \/ ((sv_i s mod 100 = 0)%nat /\ sv_res_u s < rc_threshold c)).
  Proof.
    intros fuel s0 s tr E.
    destruct (run_start _ _ _ _ E) as (s1 & s2 & s4 & trl & ev' & Hc & Hs & Hi & _ & _ & _ & _ & _ & Hsame & Hl & Ho & -> & ->).
    set (I := fun (_ : solver) (tr : list event) => forall i t, In (EvStream i t) tr -> (i < rc_steps c)%nat /\ t < rc_end_time c).
    destruct (loop_inv I) with (fuel := fuel) (s := s2) (tr := [@EvCollide D (sv_start s0)]) (s' := s4) (tr' := trl) as (s5 & tr5 & ev5 & HI & Hst & Htr).
    - intros u tr u1 ev1 u2 ev2 HI Hst Hit i t Hin.
      destruct (stop_cases _ _ _ _ Hst) as (K1 & K2 & K3 & K4 & K5 & KK).
      apply in_app_or in Hin. destruct Hin as [Hin|Hin]; [apply HI; exact Hin|].
      apply in_app_or in Hin. destruct Hin as [Hin|Hin].
      + destruct KK as [(_ & _ & -> & _)|(_ & _ & [(_ & _ & -> & _)|(_ & _ & -> & _)])]; [destruct Hin|destruct Hin|destruct Hin as [Hin|[]]; discriminate].
      + destruct (iterate_ok _ _ _ Hit) as (e1 & ef & sf & x & Hout & _ & _ & _ & Hef & Hev & _). subst ev2.
        apply in_app_or in Hin. destruct Hin as [Hin|Hin]; [exfalso; eapply output_no_stream; eauto|].
        destruct Hin as [Hin|Hin].
        * inversion Hin; subst. rewrite K2, K3.
          destruct KK as [(Hf & _)|(A & B & _)]; [discriminate|auto].
        * exfalso. destruct Hef as [-> | ->]; simpl in Hin; intuition discriminate.
    - intros i t [H|[]]; discriminate.
    - exact Hl.
    - split.
      + intros i t Hin. subst trl. apply in_app_or in Hin. destruct Hin as [Hin|Hin]; [|exfalso; eapply output_no_stream; eauto].
        apply in_app_or in Hin. destruct Hin as [Hin|Hin]; [apply HI; exact Hin|].
        destruct (stop_cases _ _ _ _ Hst) as (K1 & K2 & K3 & K4 & K5 & KK).
        destruct KK as [(_ & _ & -> & _)|(_ & _ & [(_ & _ & -> & _)|(_ & _ & -> & _)])]; [destruct Hin|destruct Hin|destruct Hin as [Hin|[]]; discriminate].
      + destruct (stop_cases _ _ _ _ Hst) as (K1 & K2 & K3 & K4 & K5 & KK). rewrite K2, K3.
        destruct KK as [(_ & _ & _ & [A|A])|(_ & _ & [(A & _)|(A & _ & _ & B)])]; [auto|auto|discriminate|].
        right; right; split; [auto|]. apply B; reflexivity.
  Qed.

  (** ** C18: time *)
  Lemma stream_time : forall s, constant_step c o ->
    sv_time (stream c o s) = sv_time s + sv_dt s /\ sv_dt (stream c o s) = sv_dt s.
  Proof.
    intros s H. unfold constant_step in H. unfold stream. destruct (rc_semi_lagrangian c); [split; reflexivity|].
    destruct H as [H|H]; [discriminate|]. simpl. rewrite H. split; reflexivity.
  Qed.

  Lemma run_time : forall fuel s0 s tr, constant_step c o ->
    run c o fuel s0 = Some (Ok (s, tr)) ->
    sv_time s = sv_time s0 + INR (sv_i s - sv_start s0) * sv_dt s0 /\ sv_dt s = sv_dt s0 /\
    forall i t, In (EvStream i t) tr -> t = sv_time s0 + INR (i - sv_start s0) * sv_dt s0.
  Proof.
    intros fuel s0 s tr Hdt E.
    destruct (run_start _ _ _ _ E) as (s1 & s2 & s4 & trl & ev' & Hc & Hs & Hi & Ht & _ & _ & Hd & _ & Hsame & Hl & Ho & -> & ->).
    specialize (Hd Hdt). set (a := sv_start s0) in *.
    set (I := fun (s : solver) (tr : list event) => (a <= sv_i s)%nat /\ sv_dt s = sv_dt s0 /\
       sv_time s = sv_time s0 + INR (sv_i s - a) * sv_dt s0 /\
       forall i t, In (EvStream i t) tr -> t = sv_time s0 + INR (i - a) * sv_dt s0).
    destruct (loop_inv I) with (fuel := fuel) (s := s2) (tr := [@EvCollide D a]) (s' := s4) (tr' := trl) as (s5 & tr5 & ev5 & HI & Hst & Htr).
    - intros u tr u1 ev1 u2 ev2 (I0 & I1 & I2 & I3) Hst Hit.
      destruct (stop_cases _ _ _ _ Hst) as (K1 & K2 & K3 & K4 & K5 & KK).
      destruct (iterate_ok _ _ _ Hit) as (e1 & ef & sf & x & Hout & _ & _ & _ & Hef & Hev & Hsm).
      destruct Hsm as (M1 & M2 & M3 & M4 & _).
      destruct (stream_time (next_i u1) Hdt) as [T1 T2]. destruct (stream_i (next_i u1)) as [T3 T4].
      rewrite T1 in M3. rewrite T2 in M4. rewrite T3 in M2. cbn [next_i sv_time sv_dt sv_i] in M2, M3, M4.
      unfold I. rewrite M2, M3, M4, K2, K3, K4.
      split; [lia|split; [exact I1|split]].
      + rewrite I2, I1. replace (S (sv_i u) - a)%nat with (S (sv_i u - a)) by lia. rewrite S_INR. ring.
      + intros i t Hin. apply in_app_or in Hin. destruct Hin as [Hin|Hin]; [apply I3; exact Hin|].
        apply in_app_or in Hin. destruct Hin as [Hin|Hin].
        * destruct KK as [(_ & _ & -> & _)|(_ & _ & [(_ & _ & -> & _)|(_ & _ & -> & _)])]; [destruct Hin|destruct Hin|destruct Hin as [Hin|[]]; discriminate].
        * subst ev2. apply in_app_or in Hin. destruct Hin as [Hin|Hin]; [exfalso; eapply output_no_stream; eauto|].
          destruct Hin as [Hin|Hin].
          { inversion Hin; subst. rewrite K2, K3. exact I2. }
          { exfalso. destruct Hef as [-> | ->]; simpl in Hin; intuition discriminate. }
    - destruct Hsame as (M1 & M2 & M3 & M4 & _). unfold I. rewrite M2, M3, M4, Hi, Ht, Hd, Nat.sub_diag. simpl.
      repeat split; [lia|ring|]. intros i t [H|[]]; discriminate.
    - exact Hl.
    - destruct HI as (I0 & I1 & I2 & I3). destruct (stop_cases _ _ _ _ Hst) as (K1 & K2 & K3 & K4 & K5 & KK).
      rewrite K2, K3, K4. split; [exact I2|split; [exact I1|]].
      intros i t Hin. subst trl. apply in_app_or in Hin. destruct Hin as [Hin|Hin]; [|exfalso; eapply output_no_stream; eauto].
      apply in_app_or in Hin. destruct Hin as [Hin|Hin]; [apply I3; exact Hin|].
      destruct KK as [(_ & _ & -> & _)|(_ & _ & [(_ & _ & -> & _)|(_ & _ & -> & _)])]; [destruct Hin|destruct Hin|destruct Hin as [Hin|[]]; discriminate].
  Qed.
End Run.
