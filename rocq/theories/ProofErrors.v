(** Benchmark runs and error statistics. *)
From Coq Require Import NArith Sorting.Sorted.
From Verif Require Import Prelude ModelConfigNames ModelRun ModelErrors SpecRun SpecErrors ProofRun ProofRun2.
Local Open Scope R_scope.

Section Bench.
  Context {X D : Type}.
  Variables (c : run_config) (o : solver_ops X D).

  Definition due (i : nat) : bool := (negb (rc_output_off c) && Nat.eqb (i mod rc_table_interval c) 0)%bool.

  Lemma part_map : forall l : list (event D), run_part (map BRun l) = l.
  Proof. intros l. unfold run_part. induction l as [|e l IH]; [reflexivity|]. cbn. f_equal. exact IH. Qed.
  Lemma lines_map : forall l : list (event D), error_lines (map BRun l) = [].
  Proof. intros l. unfold error_lines. induction l as [|e l IH]; [reflexivity|]. cbn. exact IH. Qed.
  Lemma part_app : forall a b : list (bench_event D), run_part (a ++ b) = run_part a ++ run_part b.
  Proof. intros. apply flat_map_app. Qed.
  Lemma lines_app : forall a b : list (bench_event D), error_lines (a ++ b) = error_lines a ++ error_lines b.
  Proof. intros. apply flat_map_app. Qed.

  Lemma output_table : forall (s : solver X) i fin ev, output c o s i fin = Ok ev -> rc_output_off c = false -> rc_table_interval c <> O.
  Proof.
    unfold output. intros s i fin ev H Hoff E. rewrite Hoff, E in H. cbn [cmod obind] in H.
    destruct (rc_solution_interval c); discriminate.
  Qed.

  Lemma bench_output_ok : forall (s : solver X) i fin ev, output c o s i false = Ok ev ->
    exists ev', bench_output c o s i fin = Ok ev' /\ run_part ev' = ev /\
      error_lines ev' = if due (sv_i s) then [sv_i s] else [].
  Proof.
    intros s i fin ev H. unfold bench_output. rewrite H. cbn [obind]. unfold due.
    destruct (rc_output_off c) eqn:Eoff; cbn [negb andb].
    - cbn [obind]. eexists. split; [reflexivity|]. rewrite app_nil_r. split; [apply part_map|apply lines_map].
    - pose proof (output_table s i false ev H Eoff) as N. destruct (rc_table_interval c) as [|k] eqn:Ek; [congruence|].
      unfold cmod. cbn [obind].
      destruct (Nat.eqb (sv_i s mod S k) 0); cbn [obind]; eexists; (split; [reflexivity|]);
        rewrite part_app, lines_app, part_map, lines_map; split; try reflexivity; apply app_nil_r.
  Qed.

  Lemma bench_iterate_ok : forall (s s2 : solver X) ev, iterate c o s = Ok (s2, ev) ->
    exists ev', bench_iterate c o s = Ok (s2, ev') /\ run_part ev' = ev /\
      error_lines ev' = (if due (sv_i s) then [sv_i s] else []) /\ sv_i s2 = S (sv_i s) /\ sv_start s2 = sv_start s.
  Proof.
    intros s s2 ev H. destruct (iterate_steps _ _ _ _ _ H) as (Hi & Hst & _).
    unfold iterate in H. unfold bench_iterate.
    destruct (output c o s (sv_i s) false) as [ev1| |] eqn:Eo; cbn [obind] in H; try discriminate.
    destruct (bench_output_ok s (sv_i s) false ev1 Eo) as (ev1' & E1 & P1 & L1). rewrite E1. cbn [obind].
    destruct (filter c o (stream c o (next_i s))) as [sf| |]; cbn [obind] in *; try discriminate.
    destruct (collide o (fst sf)) as [sc| |]; cbn [obind] in *; try discriminate.
    injection H as H2 H1. eexists. split; [rewrite H2; reflexivity|].
    rewrite part_app, lines_app, part_map, lines_map, P1, L1, app_nil_r. split; [exact H1|split; [reflexivity|split; [exact Hi|exact Hst]]].
  Qed.

  Lemma filter_snoc : forall f i n, List.filter f (seq i (S n)) = (if f i then [i] else []) ++ List.filter f (seq (S i) n).
  Proof. intros f i n. cbn [seq List.filter]. destruct (f i); reflexivity. Qed.

  Lemma bench_loop_ok : forall fuel (s s' : solver X) tr tr', loop c o fuel s (run_part tr) = Some (Ok (s', tr')) ->
    exists tr2, bench_loop c o fuel s tr = Some (Ok (s', tr2)) /\ run_part tr2 = tr' /\ (sv_i s <= sv_i s')%nat /\ sv_start s' = sv_start s /\
      error_lines tr2 = error_lines tr ++ List.filter due (seq (sv_i s) (sv_i s' - sv_i s)).
  Proof.
    induction fuel as [|fuel IH]; intros s s' tr tr' H; cbn [loop bench_loop] in *; [discriminate|].
    destruct (stopConditionMet c o s) as [[b s1] ev1] eqn:Es. cbn [fst snd] in *.
    destruct (stop_cases _ _ _ _ _ _ Es) as (Hst & Hi & _).
    destruct b.
    - injection H as H1 H2. subst s' tr'. eexists. split; [reflexivity|].
      rewrite part_app, lines_app, part_map, lines_map, Hi, Nat.sub_diag. cbn [seq List.filter]. repeat split; [lia|exact Hst].
    - destruct (iterate c o s1) as [[s2 ev2]| |] eqn:Ei; try discriminate.
      destruct (bench_iterate_ok _ _ _ Ei) as (ev2' & E2 & P2 & L2 & I2 & I3). rewrite E2.
      assert (Q : run_part (tr ++ map BRun ev1 ++ ev2') = run_part tr ++ ev1 ++ ev2)
        by (rewrite !part_app, part_map, P2; reflexivity).
      rewrite <- Q in H. destruct (IH _ _ _ _ H) as (tr2 & A & B & C & C' & E).
      exists tr2. split; [exact A|split; [exact B|split; [lia|split; [congruence|]]]].
      rewrite E, !lines_app, lines_map, L2, I2, Hi. cbn [app].
      rewrite <- app_assoc. f_equal.
      replace (sv_i s' - sv_i s)%nat with (S (sv_i s' - S (sv_i s))) by lia.
      rewrite filter_snoc. reflexivity.
  Qed.

  (** A benchmark run does what the run of the base class does, except in the last call of output. *)
  Lemma bench_run_ok : forall fuel s0 s tr, rc_compressible c = false -> run c o fuel s0 = Some (Ok (s, tr)) ->
    exists tr' tr0 last last', bench_run c o fuel s0 = Some (Ok (s, tr')) /\
      error_lines tr' = List.filter due (seq (sv_start s0) (S (sv_i s - sv_start s0))) /\
      tr = tr0 ++ last /\ run_part tr' = tr0 ++ last' /\
      output c o s (sv_i s) true = Ok last /\ output c o s (sv_i s) false = Ok last' /\ sv_start s = sv_start s0.
  Proof.
    intros fuel s0 s tr Hc H. unfold run in H. unfold bench_run. rewrite Hc in *. cbn [andb obind] in H. cbv zeta in *.
    cbn [fst] in H.
    set (s1 := {| sv_start := sv_start s0; sv_i := sv_start s0 |}) in *.
    destruct (collide o s1) as [[s3 ev]| |] eqn:Ec; try discriminate.
    assert (I3 : sv_i s3 = sv_start s0 /\ sv_start s3 = sv_start s0).
    { destruct (collide_ok _ _ _ _ Ec) as (x & _ & -> & _). split; reflexivity. }
    destruct I3 as [I3 I4].
    destruct (loop c o fuel s3 ev) as [[[s4 trl]| |]|] eqn:El; try discriminate.
    destruct (output c o s4 (sv_i s4) true) as [ev'| |] eqn:Eo; try discriminate.
    injection H as <- <-.
    rewrite <- (part_map ev) in El. destruct (bench_loop_ok _ _ _ _ _ El) as (tr2 & A & B & C & C' & E). rewrite A.
    assert (F : exists lf, output c o s4 (sv_i s4) false = Ok lf).
    { unfold output in *. destruct (rc_output_off c); cbn [obind andb negb] in *; rewrite ?Hc in *; cbn [negb andb obind] in *.
      - eexists; reflexivity.
      - destruct (rc_solution_interval c) as [|k1]; cbn [cmod obind] in *; [discriminate|].
        destruct (rc_table_interval c) as [|k2]; cbn [cmod obind] in *; [discriminate|].
        destruct (rc_checkpoint_interval c) as [|k3]; cbn [cmod obind] in *; [discriminate|].
        match goal with |- context [if ?b then Ok [EvCheckpoint _ _ _] else _] => destruct b; cbn [obind]; eexists; reflexivity end. }
    destruct F as [lf Ef].
    destruct (bench_output_ok s4 (sv_i s4) true lf Ef) as (ev2 & O1 & O2 & O3). rewrite O1.
    exists (tr2 ++ ev2), trl, ev', lf. split; [reflexivity|]. rewrite lines_app, part_app, O2, O3, E, B, lines_map, I3. cbn [app].
    repeat split; try assumption; try reflexivity; [|congruence]. rewrite I3 in C.
    assert (S1 : seq (sv_start s0) (S (sv_i s4 - sv_start s0)) = seq (sv_start s0) (sv_i s4 - sv_start s0) ++ [sv_i s4]).
    { rewrite seq_snoc. do 2 f_equal. lia. }
    rewrite S1, filter_app. cbn [List.filter]. destruct (due (sv_i s4)); reflexivity.
  Qed.

  Lemma cps_last : forall (s : solver X) fin ev, output c o s (sv_i s) fin = Ok ev ->
    checkpoints_of ev = if cp_cond c s (sv_i s) fin then [sv_i s] else [].
  Proof.
    intros s fin ev H. destruct (output_ok _ _ _ _ _ _ H) as (files & Q & ->).
    change (checkpoints_of (EvOutput (sv_i s) fin :: files ++ (if cp_cond c s (sv_i s) fin then [cp_event c o s] else [])))
      with (checkpoints_of (files ++ (if cp_cond c s (sv_i s) fin then [cp_event c o s] else []))).
    unfold checkpoints_of. rewrite flat_map_app.
    assert (Z : flat_map (fun e : event D => match e with EvCheckpoint i _ _ => [i] | _ => [] end) files = []).
    { clear -Q. induction files as [|e l IH]; [reflexivity|]. cbn [forallb] in Q. apply andb_prop in Q. destruct Q as [Q1 Q2].
      cbn [flat_map]. rewrite (IH Q2). destruct e; try discriminate; reflexivity. }
    rewrite Z. cbn [app]. destruct (cp_cond c s (sv_i s) fin); reflexivity.
  Qed.

  Lemma sorted_last : forall (l : list nat) x, StronglySorted lt (l ++ [x]) -> forall i, In i l -> (i < x)%nat.
  Proof.
    induction l as [|y l IH]; intros x H i Hi; [destruct Hi|]. cbn [app] in H. inversion H; subst.
    destruct Hi as [<-|Hi]; [|apply IH; assumption]. rewrite Forall_forall in H3. apply H3. apply in_or_app. right. left. reflexivity.
  Qed.

  Lemma bench_checkpoints : forall fuel s0 s tr s' tr', rc_compressible c = false ->
    run c o fuel s0 = Some (Ok (s, tr)) -> bench_run c o fuel s0 = Some (Ok (s', tr')) ->
    s' = s /\
    forall i, In i (checkpoints_of (run_part tr')) <->
      In i (checkpoints_of tr) /\ ~ (i = sv_i s /\ (sv_i s mod rc_checkpoint_interval c <> 0)%nat).
  Proof.
    intros fuel s0 s tr s' tr' Hc H1 H2.
    destruct (bench_run_ok fuel s0 s tr Hc H1) as (tr2 & tr0 & l1 & l2 & A & _ & B & C & E & F & St).
    rewrite A in H2. injection H2 as H2a H2b. subst s' tr2. split; [reflexivity|]. intros i.
    destruct (run_checkpoints c o _ _ _ _ H1) as [Hd Hs]. specialize (Hd (sv_i s)). rewrite B in Hs, Hd |- *. rewrite C.
    assert (app : forall a b : list (event D), checkpoints_of (a ++ b) = checkpoints_of a ++ checkpoints_of b) by (intros; apply flat_map_app).
    rewrite app in Hs, Hd. rewrite !app.
    pose proof (cps_last s true l1 E) as K1. pose proof (cps_last s false l2 F) as K2.
    rewrite K1, K2 in *. unfold cp_cond in *.
    set (g1 := negb (rc_output_off c && negb (rc_compressible c))) in *.
    set (g2 := switched_on (rc_checkpoint_interval c)) in *.
    set (g3 := negb (Nat.eqb (sv_start s) (sv_i s))) in *.
    destruct (Nat.eqb (sv_i s mod rc_checkpoint_interval c) 0) eqn:Em; cbn [orb andb] in *.
    - apply Nat.eqb_eq in Em. rewrite Em. split; [intros Q; split; [exact Q|intros [_ Z]; apply Z; reflexivity]|intros [Q _]; exact Q].
    - apply Nat.eqb_neq in Em. rewrite (Bool.andb_false_r g1). rewrite app_nil_r.
      destruct (g1 && (g2 && g3))%bool eqn:G.
      + rewrite in_app_iff. split.
        * intros Q. split; [left; exact Q|]. intros [-> _]. pose proof (sorted_last _ _ Hs (sv_i s) Q). lia.
        * intros [[Q|[Q|[]]] Z]; [exact Q|]. exfalso. apply Z. split; [symmetry; exact Q|exact Em].
      + rewrite app_nil_r. split; [|intros [Q _]; exact Q]. intros Q. split; [exact Q|]. intros [-> _].
        rewrite app_nil_r in Hd. apply Hd in Q. destruct Q as (Q1 & Q2 & Q3 & Q4 & Q5).
        assert (G1 : g1 = true). { unfold g1. rewrite Hc. destruct Q5 as [->|Q5]; [reflexivity|congruence]. }
        assert (G2 : g2 = true). { unfold g2, switched_on. destruct (Rle_dec (INR (rc_checkpoint_interval c)) (10 ^ 8)); [reflexivity|contradiction]. }
        assert (G3 : g3 = true).
        { unfold g3. apply Bool.negb_true_iff, Nat.eqb_neq. congruence. }
        rewrite G1, G2, G3 in G. discriminate.
  Qed.
End Bench.
