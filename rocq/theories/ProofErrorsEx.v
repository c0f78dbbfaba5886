(** Concrete benchmark runs and error statistics. *)
From Coq Require Import NArith.
From Verif Require Import Prelude ModelConfigNames ModelRun ModelCheckpoint ModelErrors SpecRun SpecErrors ProofRun ProofRun2 ProofRestart ProofRestart2 ProofRunEx ProofErrors ProofErrorStats.
Local Open Scope R_scope.

(** three steps, a checkpoint every two, a solution every two, a table line every [table] *)
Definition e_c (compressible : bool) (table : nat) : run_config :=
  {| rc_compressible := compressible; rc_semi_lagrangian := true; rc_steps := 3; rc_end_time := 1000; rc_threshold := 0;
     rc_output_off := false; rc_solution_interval := 2; rc_table_interval := table; rc_checkpoint_interval := 2;
     rc_filtering := false; rc_filter_interval := 1; rc_order := 1; rc_init := EQUILIBRIUM; rc_init_residual := 0; rc_init_steps := 0 |}.

Lemma e_run : forall b table, (1 <= table)%nat -> exists s tr,
  run (e_c b table) (t_ops (fun x => x / 2)) 4 (fresh 1 1) = Some (Ok (s, tr)) /\ sv_i s = 3%nat.
Proof.
  intros b table Ht. set (c := e_c b table). set (o := t_ops (fun x => x / 2)).
  assert (Hv : valid_intervals c) by (repeat split; cbn; lia).
  assert (HP : keeps o (fun _ => True)).
  { split; [intros x _; exists x; split; [reflexivity|exact I]|]. repeat split; auto. }
  assert (E : exists s tr, run c o 4 (fresh 1 1) = Some (Ok (s, tr))).
  { destruct b; [|destruct (run_runs c o (fun _ => True) Hv HP (fresh 1 1) eq_refl I) as (s & tr & E & _); eauto].
    unfold run. cbv zeta. cbn [c e_c rc_compressible fresh sv_i sv_start Nat.leb andb initializeDistributions_compressible rc_init].
    unfold initializeDistributions_compressible. cbn [c e_c rc_init obind fst].
    unfold collide. cbn [o t_ops so_collide obind].
    match goal with |- context [loop c o ?n ?s ?t] => destruct (loop_runs c o (fun _ => True) Hv HP n s t) as (s4 & tr4 & El & P4) end;
      [cbn; lia|exact I|].
    rewrite El. destruct (output_runs c o s4 (sv_i s4) true Hv) as [ev' ->]. eauto. }
  destruct E as (s & tr & E).
  exists s, tr. split; [exact E|].
  assert (Hr : 0 <= sv_res_u (fresh 1 1 : solver R)) by (cbn; lra).
  destruct (run_final c o _ _ s tr (or_introl eq_refl) (Rle_refl 0) Hr E) as [Q1 Q2].
  destruct (run_steps _ _ _ _ _ _ E) as (Q3 & _).
  cbn [c e_c rc_steps rc_end_time fresh sv_start sv_time sv_dt] in *.
  destruct (Nat.lt_trichotomy (sv_i s) 3) as [H|[H|H]]; [|exact H|].
  - exfalso. destruct Q1 as [Q1|Q1]; [lia|]. rewrite Nat.sub_0_r in Q1.
    assert (H1 : INR (sv_i s) < INR 3) by (apply lt_INR; lia). cbn [INR] in H1. lra.
  - exfalso. apply (Q2 3%nat); [lia|left; lia].
Qed.

(** the solution of the last iteration *)
Lemma solutions_app : forall {D} (a b : list (event D)), solutions_of (a ++ b) = solutions_of a ++ solutions_of b.
Proof. intros. unfold solutions_of. apply flat_map_app. Qed.

Section Solutions.
  Context {X D : Type}.
  Variables (c : run_config) (o : solver_ops X D).
  Definition multiples (tr : list (event D)) : Prop := forall i, In i (solutions_of tr) -> (i mod rc_solution_interval c = 0)%nat.
  Lemma multiples_app : forall a b, multiples a -> multiples b -> multiples (a ++ b).
  Proof. intros a b Ha Hb i. rewrite solutions_app, in_app_iff. intros [H|H]; [apply Ha|apply Hb]; exact H. Qed.
  Lemma none_multiples : forall ev, solutions_of ev = [] -> multiples ev.
  Proof. intros ev E i H. rewrite E in H. destruct H. Qed.
  Lemma output_solutions : forall (s : solver X) i fin ev, output c o s i fin = Ok ev ->
    (fin = false -> multiples ev) /\ (fin = true -> rc_output_off c = false -> In i (solutions_of ev)).
  Proof.
    intros s i fin ev H. unfold output in H.
    destruct (rc_output_off c); cbn [obind andb] in H.
    - split; [|discriminate]. intros _. apply none_multiples.
      destruct (negb (rc_compressible c)); cbn [obind] in H; [injection H as <-; reflexivity|].
      destruct (rc_checkpoint_interval c); cbn [cmod obind] in H; [discriminate|].
      match type of H with context [if ?b then Ok [EvCheckpoint _ _ _] else _] => destruct b end; cbn [obind] in H; injection H as <-; reflexivity.
    - unfold multiples. destruct (rc_solution_interval c) as [|k1] eqn:E1; cbn [cmod obind] in H; [discriminate|].
      destruct (rc_table_interval c) as [|k2]; cbn [cmod obind] in H; [discriminate|].
      destruct (rc_checkpoint_interval c) as [|k3]; cbn [cmod obind] in H; [discriminate|].
      assert (Q : exists m t l, ev = m ++ (if ((Nat.eqb (i mod S k1) 0 && switched_on (S k1)) || fin)%bool then [EvSolution i] else []) ++ t ++ l /\
        solutions_of m = [] /\ solutions_of t = [] /\ solutions_of l = []).
      { match type of H with context [if ?b then Ok [EvCheckpoint ?x ?y ?z] else _] =>
          exists (EvOutput i fin :: (if (negb (rc_compressible c) && Nat.eqb (i - sv_start s) 0)%bool then [EvMesh i] else [])),
            (if Nat.eqb (i mod S k2) 0 then [EvTable i] else []),
            (if b then [EvCheckpoint x y z] else []); destruct b end;
        cbn [obind] in H; injection H as <-; (split; [cbn [app]; rewrite <- !app_assoc; reflexivity|]);
        destruct (negb (rc_compressible c) && Nat.eqb (i - sv_start s) 0)%bool; destruct (Nat.eqb (i mod S k2) 0); repeat split; reflexivity. }
      destruct Q as (m & t & l & -> & Q1 & Q2 & Q3). split.
      + intros -> j. rewrite !solutions_app, Q1, Q2, Q3, app_nil_r. cbn [app]. rewrite ?app_nil_r. rewrite Bool.orb_false_r.
        destruct (Nat.eqb (i mod S k1) 0) eqn:E; cbn [andb]; [|intros []].
        destruct (switched_on (S k1)); [|intros []]. intros [<-|[]]. apply Nat.eqb_eq, E.
      + intros -> _. rewrite Bool.orb_true_r, !solutions_app. apply in_or_app. right. apply in_or_app. left. left. reflexivity.
  Qed.
  Lemma bench_output_solutions : forall (s : solver X) i fin ev, bench_output c o s i fin = Ok ev -> multiples (run_part ev).
  Proof.
    intros s i fin ev H. unfold bench_output in H. destruct (output c o s i false) as [e1| |] eqn:E; cbn [obind] in H; try discriminate.
    assert (exists errs, ev = map BRun e1 ++ errs /\ run_part errs = []) as (errs & -> & P).
    { destruct (rc_output_off c); cbn [obind] in H; [injection H as <-; exists []; split; reflexivity|].
      destruct (cmod _ _) as [r| |]; cbn [obind] in H; try discriminate.
      destruct (Nat.eqb r 0); cbn [obind] in H; injection H as <-; eexists; split; reflexivity. }
    rewrite part_app, part_map, P, app_nil_r. destruct (output_solutions _ _ _ _ E) as [Q _]. apply Q. reflexivity.
  Qed.
  Lemma quiet_map : forall (l : list (event D)), (forall e, In e l -> match e with EvSolution _ => False | _ => True end) -> solutions_of l = [].
  Proof.
    induction l as [|e l IH]; intros H; [reflexivity|]. unfold solutions_of in *. cbn [flat_map].
    rewrite IH by (intros; apply H; right; assumption). specialize (H e (or_introl eq_refl)). destruct e; try reflexivity. destruct H.
  Qed.
  Lemma collide_quiet : forall s s' ev, collide o s = Ok (s', ev) -> solutions_of ev = [].
  Proof. intros s s' ev H. destruct (collide_ok _ _ _ _ H) as (x & _ & _ & ->). reflexivity. Qed.
  Lemma filter_quiet : forall s s' ev, filter c o s = Ok (s', ev) -> solutions_of ev = [].
  Proof.
    intros s s' ev H. unfold filter in H. destruct (rc_filtering c); [|injection H as <- <-; reflexivity].
    destruct (cmod _ _) as [r| |]; cbn [obind] in H; try discriminate. destruct (Nat.eqb r 0); injection H as <- <-; reflexivity.
  Qed.
  Lemma bench_iterate_solutions : forall s s2 ev, bench_iterate c o s = Ok (s2, ev) -> multiples (run_part ev).
  Proof.
    intros s s2 ev H. unfold bench_iterate in H.
    destruct (bench_output c o s (sv_i s) false) as [ev1| |] eqn:Eo; cbn [obind] in H; try discriminate.
    destruct (filter c o (stream c o (next_i s))) as [[s3 ef]| |] eqn:Ef; cbn [obind fst snd] in H; try discriminate.
    destruct (collide o s3) as [[s4 ec]| |] eqn:Ec; cbn [obind fst snd] in H; try discriminate.
    injection H as <- <-. rewrite part_app. apply multiples_app; [eapply bench_output_solutions; eassumption|].
    change (BRun (EvStream (sv_i s) (sv_time s)) :: map BRun (ef ++ ec)) with (map BRun (EvStream (sv_i s) (sv_time s) :: ef ++ ec)).
    rewrite part_map. apply none_multiples. change (EvStream (sv_i s) (sv_time s) :: ef ++ ec) with ([EvStream (sv_i s) (sv_time s)] ++ ef ++ ec).
    rewrite !solutions_app, (filter_quiet _ _ _ Ef), (collide_quiet _ _ _ Ec). reflexivity.
  Qed.
  Lemma stop_quiet : forall s b s1 ev, stopConditionMet c o s = (b, s1, ev) -> solutions_of ev = [].
  Proof.
    intros s b s1 ev H. unfold stopConditionMet in H.
    repeat match type of H with
    | (if ?b then _ else _) = _ => destruct b
    | (let _ := _ in _) = _ => cbv zeta in H
    | (match ?x with _ => _ end) = _ => destruct x
    end; injection H as <- <- <-; try reflexivity.
  Qed.
  Lemma bench_loop_solutions : forall fuel s s' tr tr', bench_loop c o fuel s tr = Some (Ok (s', tr')) -> multiples (run_part tr) -> multiples (run_part tr').
  Proof.
    induction fuel as [|fuel IH]; intros s s' tr tr' H M; cbn [bench_loop] in H; [discriminate|].
    destruct (stopConditionMet c o s) as [[b s1] ev1] eqn:Es. cbn [fst snd] in H. pose proof (stop_quiet _ _ _ _ Es) as Q. destruct b.
    - injection H as <- <-. rewrite part_app, part_map. apply multiples_app; [exact M|apply none_multiples, Q].
    - destruct (bench_iterate c o s1) as [[s2 ev2]| |] eqn:Ei; try discriminate. apply (IH _ _ _ _ H).
      rewrite !part_app, part_map. apply multiples_app; [exact M|]. apply multiples_app; [apply none_multiples, Q|].
      eapply bench_iterate_solutions; eassumption.
  Qed.
  (** Solution files of a benchmark run belong to multiples of the interval; the base class always writes the last one. *)
  Lemma bench_solutions : forall fuel s0 s tr, rc_compressible c = false -> bench_run c o fuel s0 = Some (Ok (s, tr)) ->
    forall i, In i (solutions_of (run_part tr)) -> (i mod rc_solution_interval c = 0)%nat.
  Proof.
    intros fuel s0 s tr Hc H. change (multiples (run_part tr)). unfold bench_run in H. rewrite Hc in H. cbv zeta in H.
    destruct (collide o _) as [[s3 ev]| |] eqn:Ec; try discriminate.
    destruct (bench_loop c o fuel s3 (map BRun ev)) as [[[s4 trl]| |]|] eqn:El; try discriminate.
    destruct (bench_output c o s4 (sv_i s4) true) as [ev'| |] eqn:Eo; try discriminate. injection H as <- <-.
    rewrite part_app. apply multiples_app; [|eapply bench_output_solutions; eassumption].
    eapply bench_loop_solutions; [exact El|]. rewrite part_map. apply none_multiples. eapply collide_quiet; eassumption.
  Qed.
  Lemma run_last_solution : forall fuel s0 s tr, rc_compressible c = false -> rc_output_off c = false ->
    run c o fuel s0 = Some (Ok (s, tr)) -> In (sv_i s) (solutions_of tr).
  Proof.
    intros fuel s0 s tr Hc Ho H. destruct (bench_run_ok c o fuel s0 s tr Hc H) as (_ & tr0 & l & _ & _ & _ & -> & _ & E & _).
    destruct (output_solutions _ _ _ _ E) as [_ Q]. rewrite solutions_app. apply in_or_app. right. apply Q; [reflexivity|exact Ho].
  Qed.
End Solutions.

Lemma final_missing : exists (c : run_config) (o : solver_ops R R) fuel s0 s tr tr',
  rc_compressible c = false /\ run c o fuel s0 = Some (Ok (s, tr)) /\ bench_run c o fuel s0 = Some (Ok (s, tr')) /\
  In (sv_i s) (checkpoints_of tr) /\ ~ In (sv_i s) (checkpoints_of (run_part tr')) /\
  In (sv_i s) (solutions_of tr) /\ ~ In (sv_i s) (solutions_of (run_part tr')).
Proof.
  destruct (e_run false 2 ltac:(lia)) as (s & tr & E & Hi).
  destruct (bench_run_ok (e_c false 2) _ _ _ _ _ eq_refl E) as (tr' & _ & _ & _ & B & _).
  exists (e_c false 2), (t_ops (fun x => x / 2)), 4%nat, (fresh 1 1), s, tr, tr'.
  split; [reflexivity|split; [exact E|split; [exact B|]]].
  destruct (bench_checkpoints (e_c false 2) _ _ _ _ _ _ _ eq_refl E B) as [_ Q].
  split; [|split; [|split]].
  - destruct (run_checkpoints _ _ _ _ _ _ E) as [Hd _]. apply Hd. rewrite Hi. cbn [e_c rc_checkpoint_interval fresh sv_start rc_output_off rc_compressible].
    unfold checkpoint_due. cbn [e_c rc_checkpoint_interval rc_output_off]. split; [cbn; lia|]. split; [right; reflexivity|].
    split; [cbn [INR]; lra|]. split; [cbn; lia|left; reflexivity].
  - intros H. apply Q in H. destruct H as [_ H]. apply H. split; [reflexivity|]. rewrite Hi. cbn. discriminate.
  - eapply run_last_solution; [| |exact E]; reflexivity.
  - intros H. apply (bench_solutions (e_c false 2) _ _ _ _ _ eq_refl B) in H. rewrite Hi in H. cbn in H. discriminate.
Qed.

Lemma compressible_no_lines : forall {X D} (c : run_config) (o : solver_ops X D) fuel s0 s tr,
  rc_compressible c = true -> bench_run c o fuel s0 = Some (Ok (s, tr)) -> error_lines tr = [].
Proof.
  intros X D c o fuel s0 s tr Hc H. unfold bench_run in H. rewrite Hc in H.
  destruct (run c o fuel s0) as [[[s1 tr1]| |]|]; try discriminate. injection H as <- <-. apply lines_map.
Qed.
Lemma compressible_runs : exists s tr, bench_run (e_c true 1) (t_ops (fun x => x / 2)) 4 (fresh 1 1) = Some (Ok (s, tr)) /\ sv_i s = 3%nat.
Proof.
  destruct (e_run true 1 ltac:(lia)) as (s & tr & E & Hi). exists s, (map BRun tr). split; [|exact Hi].
  unfold bench_run. rewrite E. reflexivity.
Qed.

(** one cell of measure 4 with one degree of freedom, error 1 *)
Definition one_cell : view unit :=
  {| vw_iteration := 0; vw_time := 0; vw_dim := 2; vw_ranks := [[0%nat]]; vw_support := fun _ => tt;
     vw_ana_u := fun _ _ _ => 0; vw_ana_rho := fun _ _ => 1; vw_num_u := fun j _ => if Nat.eqb j 0 then 1 else 0; vw_num_rho := fun _ => 2;
     vw_cells := [[[{| qp_w := 4; qp_x := tt; qp_u := fun j => if Nat.eqb j 0 then 1 else 0; qp_rho := 2 |}]]] |}.
Lemma one_cell_errors : forall l2, exists es, update (stats_start l2) one_cell = Ok es /\ es_l2DensityError es = 2 /\ es_l2VelocityError es = 2 /\
  es_maxDensityError es = 1.
Proof.
  intros l2. destruct (update_values one_cell) with (es := stats_start l2) as (es & E & _ & _ & M & _ & _ & _ & A & B).
  - intros cells cl q H1 H2 H3. cbn in H1. destruct H1 as [<-|[]]. cbn in H2. destruct H2 as [<-|[]]. cbn in H3. destruct H3 as [<-|[]]. cbn. lra.
  - cbn. discriminate.
  - left. reflexivity.
  - exists es. split; [exact E|]. rewrite A, B. unfold quadrature, distance, one_cell, sumf.
    cbn [vw_cells concat app fold_right qp_w qp_rho vw_ana_rho qp_u vw_ana_u Nat.eqb vw_dim].
    assert (S4 : sqrt 4 = 2) by (replace 4 with (2 * 2) by ring; apply sqrt_square; lra).
    split; [|split].
    + transitivity (sqrt 4); [f_equal; ring|exact S4].
    + transitivity (sqrt 4); [f_equal|exact S4]. rewrite pow2_sqrt; cbn; lra.
    + destruct M as [_ [[M _]|(x & [<-|[]] & ->)]]; [discriminate|]. cbn [vw_num_rho vw_ana_rho one_cell]. rewrite Rabs_pos_eq; lra.
Qed.

Lemma solutions_summary : forall X D (c : run_config) (o : solver_ops X D) fuel s0, rc_compressible c = false ->
  (forall s tr, rc_output_off c = false -> run c o fuel s0 = Some (Ok (s, tr)) -> In (sv_i s) (solutions_of tr)) /\
  (forall s tr, bench_run c o fuel s0 = Some (Ok (s, tr)) ->
     forall i, In i (solutions_of (run_part tr)) -> (i mod rc_solution_interval c = 0)%nat).
Proof.
  intros X D c o fuel s0 Hc. split; intros s tr.
  - intros Ho H. eapply run_last_solution; eassumption.
  - intros H. eapply bench_solutions; eassumption.
Qed.
