(** Lemmas about initialisation and restart. *)
From Verif Require Import Prelude ModelConfigNames ModelRun SpecRun ProofRun ProofRun2.
Open Scope R_scope.

Section Run.
  Context {X D : Type}.
  Variables (c : run_config) (o : solver_ops X D).
  Notation solver := (solver X).
  Notation event := (event D).

  (** ** C24 *)
  Lemma init_loop_spec : forall fuel k s s' n r,
    init_loop c o fuel k (init_residual c o k s) (init_states c o k s) = Some (s', n, r) ->
    (k <= n)%nat /\ s' = init_states c o n s /\
    (init_residual c o n s <= rc_init_residual c \/ (rc_init_steps c < n)%nat) /\
    forall j, (k <= j < n)%nat -> rc_init_residual c < init_residual c o j s /\ (j <= rc_init_steps c)%nat.
  Proof.
    induction fuel as [|fuel IH]; intros k s s' n r; [discriminate|]. cbn [init_loop].
    destruct (Rle_lt_dec (init_residual c o k s) (rc_init_residual c)) as [H|H].
    { intro E; inversion E; subst. repeat split; auto; lia. }
    destruct (Nat.ltb (rc_init_steps c) k) eqn:El.
    { apply Nat.ltb_lt in El. intro E; inversion E; subst. repeat split; auto; lia. }
    apply Nat.ltb_ge in El. intro E. cbv zeta in E.
    change (init_step c o (init_states c o k s)) with (init_states c o (S k) s) in E.
    change (norm_sqr (so_nodes o) _) with (init_residual c o (S k) s) in E.
    destruct (IH _ _ _ _ _ E) as (A & B & C & F). split; [lia|split; [exact B|split; [exact C|]]].
    intros j Hj. destruct (Nat.eq_dec j k) as [->|Hne]; [split; assumption|]. apply F; lia.
  Qed.

  Lemma init_loop_ends : forall fuel k r s, (rc_init_steps c + 1 - k < fuel)%nat -> init_loop c o fuel k r s <> None.
  Proof.
    induction fuel as [|fuel IH]; intros k r s H; [lia|]. cbn [init_loop].
    destruct (Rle_lt_dec r (rc_init_residual c)); [discriminate|].
    destruct (Nat.ltb (rc_init_steps c) k) eqn:El; [discriminate|]. apply Nat.ltb_ge in El.
    cbv zeta. apply IH. lia.
  Qed.

  Lemma init_states_same : forall k s, sv_i (init_states c o k s) = sv_i s /\ sv_start (init_states c o k s) = sv_start s.
  Proof.
    induction k as [|k IH]; intro s; [split; reflexivity|]. cbn [init_states].
    unfold init_step, stream. destruct (rc_semi_lagrangian c); cbn [set_x sv_i sv_start]; apply IH.
  Qed.

  Definition equilibrated (s : solver) : solver := set_x s (so_set_equilibrium o (sv_x s)).

  Lemma initialization_ok : forall fuel s s' n, rc_init c = ITERATIVE ->
    initializeDistributions c o fuel s = Some (s', n) ->
    let s0 := set_x s (so_set_equilibrium o (sv_x s)) in
    (n <= rc_init_steps c + 1)%nat /\
    (init_residual c o n s0 <= rc_init_residual c \/ n = (rc_init_steps c + 1)%nat) /\
    (forall j, (j < n)%nat -> rc_init_residual c < init_residual c o j s0) /\
    sv_x s' = sv_x (init_states c o n s0) /\
    sv_i s' = sv_i s /\ sv_start s' = sv_start s /\ sv_time s' = sv_time s.
  Proof.
    intros fuel s s' n Hi E s0. unfold initializeDistributions in E. rewrite Hi in E. cbv zeta in E. fold s0 in E.
    destruct (init_loop c o fuel 0 1000000000 s0) as [[[s1 n1] r]|] eqn:El; [|discriminate].
    inversion E; subst s' n1; clear E.
    change 1000000000 with (init_residual c o 0 s0) in El.
    change (init_loop c o fuel 0 (init_residual c o 0 s0) (init_states c o 0 s0) = Some (s1, n, r)) in El.
    destruct (init_loop_spec _ _ _ _ _ _ El) as (A & B & C & F).
    assert (Hn : (n <= rc_init_steps c + 1)%nat).
    { destruct (Nat.le_gt_cases n (rc_init_steps c + 1)) as [H|H]; [exact H|]. destruct (F (n - 1)%nat ltac:(lia)) as [_ G]. lia. }
    split; [exact Hn|split; [|split]].
    - destruct C as [C|C]; [left; exact C|right; lia].
    - intros j Hj. apply F. lia.
    - destruct (init_states_same n s0) as [G1 G2]. subst s1. cbn [set_time sv_x sv_i sv_start sv_time]. rewrite G1, G2. repeat split.
  Qed.

  Lemma initialization_ends : forall s, initializeDistributions c o (rc_init_steps c + 2) s <> None.
  Proof.
    intro s. unfold initializeDistributions. destruct (rc_init c); try discriminate.
    assert (H : init_loop c o (rc_init_steps c + 2) 0 1000000000 (set_x s (so_set_equilibrium o (sv_x s))) <> None)
      by (apply init_loop_ends; lia).
    destruct (init_loop c o (rc_init_steps c + 2) 0 1000000000 _) as [[[? ?] ?]|]; [discriminate|contradiction].
  Qed.

  Lemma init_compressible_states : forall k j s, init_loop_compressible c o k (init_states c o j s) = init_states c o (j + k) s.
  Proof.
    induction k as [|k IH]; intros j s; cbn [init_loop_compressible]; [rewrite Nat.add_0_r; reflexivity|].
    change (init_step c o (init_states c o j s)) with (init_states c o (S j) s). rewrite IH. f_equal. lia.
  Qed.

  Lemma initialization_compressible_ok : forall s s' n, rc_init c = COMPRESSIBLE_ITERATIVE ->
    initializeDistributions_compressible c o s = Ok (s', n) ->
    n = rc_init_steps c /\
    sv_x s' = sv_x (init_states c o (rc_init_steps c) (set_x s (so_set_equilibrium o (sv_x s)))) /\
    sv_i s' = sv_i s /\ sv_start s' = sv_start s /\ sv_time s' = sv_time s.
  Proof.
    intros s s' n Hi E. unfold initializeDistributions_compressible in E. rewrite Hi in E. inversion E; subst; clear E.
    set (s0 := set_x s (so_set_equilibrium o (sv_x s))).
    pose proof (init_compressible_states (rc_init_steps c) 0 s0) as H. cbn [init_states Nat.add] in H. rewrite H.
    destruct (init_states_same (rc_init_steps c) s0) as [G1 G2]. cbn [set_time sv_x sv_i sv_start sv_time]. rewrite G1, G2. repeat split.
  Qed.

  (** ** C20: a run is one collision followed by [evolve] *)
  Lemma evolve_app : forall j k i t dt x,
    evolve c o (j + k) i t dt x = obind (evolve c o j i t dt x) (evolve c o k (i + j) (t + INR j * dt) dt).
  Proof.
    induction j as [|j IH]; intros k i t dt x.
    - cbn [Nat.add evolve obind INR]. rewrite Nat.add_0_r. replace (t + 0 * dt) with t by ring. reflexivity.
    - cbn [Nat.add evolve]. destruct (so_collide o (filtered c o (S i) (advected c o t dt x))) as [y| |]; cbn [obind]; try reflexivity.
      rewrite IH. rewrite S_INR. replace (S i + j)%nat with (i + S j)%nat by lia.
      replace (t + dt + INR j * dt) with (t + (INR j + 1) * dt) by ring. reflexivity.
  Qed.

  Lemma iterate_evolve : forall s s2 ev, constant_step c o -> iterate c o s = Ok (s2, ev) ->
    evolve c o 1 (sv_i s) (sv_time s) (sv_dt s) (sv_x s) = Ok (sv_x s2) /\
    sv_i s2 = S (sv_i s) /\ sv_start s2 = sv_start s /\ sv_time s2 = sv_time s + sv_dt s /\ sv_dt s2 = sv_dt s.
  Proof.
    intros s s2 ev Hdt E.
    destruct (iterate_ok _ _ _ _ _ E) as (e1 & ef & sf & x & Ho & Hf & Hx & Hs2 & Hef & Hev & Hsm).
    destruct Hsm as (M1 & M2 & M3 & M4 & _).
    destruct (stream_time c o (next_i s) Hdt) as [T1 T2]. destruct (stream_i c o (next_i s)) as [T3 T4].
    rewrite M1, M2, M3, M4, T1, T2, T3, T4. cbn [next_i sv_i sv_start sv_time sv_dt].
    split; [|repeat split].
    cbn [evolve].
    assert (Hxf : sv_x sf = filtered c o (S (sv_i s)) (advected c o (sv_time s) (sv_dt s) (sv_x s))).
    { assert (Hadv : sv_x (stream c o (next_i s)) = advected c o (sv_time s) (sv_dt s) (sv_x s))
        by (unfold stream, advected; destruct (rc_semi_lagrangian c); reflexivity).
      rewrite <- Hadv. revert Hf. unfold filter, filtered. rewrite T3. cbn [next_i sv_i].
      destruct (rc_filtering c); cbn [andb]; [|intro Hf; inversion Hf; reflexivity].
      destruct (rc_filter_interval c) as [|k]; cbn [cmod obind]; [discriminate|].
      destruct (Nat.eqb _ 0); intro Hf; inversion Hf; reflexivity. }
    rewrite <- Hxf, Hx. cbn [obind]. subst s2. reflexivity.
  Qed.

  (** everything the trace and the final state say about the populations *)
  Definition cp_ok (a : nat) (t0 dt : R) (y : X) (b : nat) (xb : X) (e : event) : Prop :=
    match e with
    | EvCheckpoint n st d => (a <= n <= b)%nat /\ cs_iteration st = n /\ cs_time st = t0 + INR (n - a) * dt /\
        cs_order st = rc_order c /\ cs_scaling st = so_scaling o /\
        exists xn, evolve c o (n - a) a t0 dt y = Ok xn /\ d = so_data o xn /\
                   evolve c o (b - n) n (cs_time st) dt xn = Ok xb
    | EvResidual n u _ => exists xn, evolve c o (n - a) a t0 dt y = Ok xn /\ u = so_velocity o xn
    | _ => True
    end.

  Lemma cp_ok_step : forall a t0 dt y b xb xb' e,
    evolve c o 1 b (t0 + INR (b - a) * dt) dt xb = Ok xb' -> (a <= b)%nat ->
    cp_ok a t0 dt y b xb e -> cp_ok a t0 dt y (S b) xb' e.
  Proof.
    intros a t0 dt y b xb xb' e H1 Hab H. destruct e; try exact I; [exact H|]. destruct H as (A & B & C & C1 & C2 & xn & F & G & K).
    cbn [cp_ok]. split; [lia|split; [exact B|split; [exact C|split; [exact C1|split; [exact C2|]]]]]. exists xn. split; [exact F|split; [exact G|]].
    replace (S b - i)%nat with (b - i + 1)%nat by lia. rewrite evolve_app, K. cbn [obind].
    replace (i + (b - i))%nat with b by lia.
    rewrite C. replace (t0 + INR (i - a) * dt + INR (b - i) * dt) with (t0 + INR (b - a) * dt); [exact H1|].
    rewrite <- (Nat.sub_add i b) at 1 by lia. replace (b - i + i - a)%nat with ((b - i) + (i - a))%nat by lia. rewrite plus_INR. ring.
  Qed.

  Lemma cp_quiet : forall a t0 dt y b xb (l : list event), forallb quiet l = true -> Forall (cp_ok a t0 dt y b xb) l.
  Proof.
    intros a t0 dt y b xb l H. apply Forall_forall. intros e He. rewrite forallb_forall in H. specialize (H e He).
    destruct e; try exact I; discriminate.
  Qed.

  Lemma cp_output : forall a t0 dt y s i fin ev, output c o s i fin = Ok ev ->
    (a <= sv_i s)%nat -> evolve c o (sv_i s - a) a t0 dt y = Ok (sv_x s) -> sv_time s = t0 + INR (sv_i s - a) * dt ->
    Forall (cp_ok a t0 dt y (sv_i s) (sv_x s)) ev.
  Proof.
    intros a t0 dt y s i fin ev E Ha Hev Ht. destruct (output_ok _ _ _ _ _ _ E) as [files [Hq ->]].
    constructor; [exact I|]. apply Forall_app; split; [apply cp_quiet; exact Hq|].
    destruct (cp_cond c s i fin); [|constructor]. constructor; [|constructor].
    cbn [cp_event cp_ok cs_iteration cs_time cs_order cs_scaling].
    split; [lia|split; [reflexivity|split; [exact Ht|split; [reflexivity|split; [reflexivity|]]]]]. exists (sv_x s).
    split; [exact Hev|split; [reflexivity|]]. rewrite Nat.sub_diag. reflexivity.
  Qed.

  Lemma run_evolve : forall fuel s0 s tr, constant_step c o -> rc_compressible c = false ->
    run c o fuel s0 = Some (Ok (s, tr)) ->
    exists y, so_collide o (sv_x s0) = Ok y /\
      (sv_start s0 <= sv_i s)%nat /\
      evolve c o (sv_i s - sv_start s0) (sv_start s0) (sv_time s0) (sv_dt s0) y = Ok (sv_x s) /\
      Forall (cp_ok (sv_start s0) (sv_time s0) (sv_dt s0) y (sv_i s) (sv_x s)) tr.
  Proof.
    intros fuel s0 s tr Hdt Hnc E.
    destruct (run_start _ _ _ _ _ _ E) as (s1 & s2 & s4 & trl & ev' & Hc & Hs & Hi & Ht & _ & _ & Hd & Hx & Hsame & Hl & Ho & -> & ->).
    specialize (Hd Hdt). destruct (Hx Hnc) as [Hx1 _].
    destruct (collide_ok _ _ _ _ Hc) as (y & Hy & Hs2 & _). rewrite Hx1 in Hy. exists y. split; [exact Hy|].
    set (a := sv_start s0) in *. set (t0 := sv_time s0) in *. set (dt := sv_dt s0) in *.
    set (I := fun (s : solver) (tr : list event) => (a <= sv_i s)%nat /\ sv_dt s = dt /\
       sv_time s = t0 + INR (sv_i s - a) * dt /\ evolve c o (sv_i s - a) a t0 dt y = Ok (sv_x s) /\
       Forall (cp_ok a t0 dt y (sv_i s) (sv_x s)) tr).
    destruct (loop_inv c o I) with (fuel := fuel) (s := s2) (tr := [@EvCollide D a]) (s' := s4) (tr' := trl) as (s5 & tr5 & ev5 & HI & Hst & Htr).
    - intros u tr' u1 ev1 u2 ev2 (I0 & I1 & I2 & I3 & I4) Hst Hit.
      destruct (stop_cases _ _ _ _ _ _ Hst) as (K1 & K2 & K3 & K4 & K5 & KK).
      destruct (iterate_evolve _ _ _ Hdt Hit) as (B1 & B2 & B3 & B4 & B5).
      rewrite K2, K3, K4, K5 in B1. rewrite K2 in B2. rewrite K3, K4 in B4. rewrite K4 in B5.
      unfold I. rewrite B2, B4, B5. rewrite I1, I2 in B1.
      assert (Hnext : evolve c o (S (sv_i u) - a) a t0 dt y = Ok (sv_x u2)).
      { replace (S (sv_i u) - a)%nat with (sv_i u - a + 1)%nat by lia. rewrite evolve_app, I3. cbn [obind].
        replace (a + (sv_i u - a))%nat with (sv_i u) by lia. exact B1. }
      split; [lia|split; [exact I1|split; [|split; [exact Hnext|]]]].
      + rewrite I2, I1. replace (S (sv_i u) - a)%nat with (S (sv_i u - a)) by lia. rewrite S_INR. ring.
      + assert (Hlift : forall l, Forall (cp_ok a t0 dt y (sv_i u) (sv_x u)) l -> Forall (cp_ok a t0 dt y (S (sv_i u)) (sv_x u2)) l).
        { intros l Hl'. eapply Forall_impl; [|exact Hl']. intros e. apply cp_ok_step; [exact B1|exact I0]. }
        apply Forall_app; split; [apply Hlift; exact I4|]. apply Forall_app; split.
        * destruct KK as [(_ & _ & -> & _)|(_ & _ & [(_ & _ & -> & _)|(_ & _ & -> & _)])]; repeat constructor.
          exists (sv_x u). split; [exact I3|reflexivity].
        * destruct (iterate_ok _ _ _ _ _ Hit) as (e1 & ef & sf & x & Hout & _ & _ & _ & Hef & -> & _).
          apply Forall_app; split.
          { assert (HF : Forall (cp_ok a t0 dt y (sv_i u1) (sv_x u1)) e1).
            { apply (cp_output _ _ _ _ _ _ _ _ Hout); [rewrite K2; exact I0|rewrite K2, K5; exact I3|rewrite K2, K3; exact I2]. }
            rewrite K2, K5 in HF. apply Hlift. exact HF. }
          { destruct Hef as [-> | ->]; repeat constructor. }
    - destruct Hsame as (M1 & M2 & M3 & M4 & _). unfold I. rewrite M2, M3, M4, Hi, Ht, Hd, Nat.sub_diag. cbn [INR evolve].
      split; [apply Nat.le_refl|split; [reflexivity|split; [ring|split; [subst s2; reflexivity|]]]]. repeat constructor.
    - exact Hl.
    - destruct HI as (I0 & I1 & I2 & I3 & I4). destruct (stop_cases _ _ _ _ _ _ Hst) as (K1 & K2 & K3 & K4 & K5 & KK).
      rewrite K2, K5. split; [exact I0|split; [exact I3|]].
      subst trl. apply Forall_app; split; [apply Forall_app; split; [exact I4|]|].
      + destruct KK as [(_ & _ & -> & _)|(_ & _ & [(_ & _ & -> & _)|(_ & _ & -> & _)])]; repeat constructor.
        exists (sv_x s5). split; [exact I3|reflexivity].
      + rewrite <- K2, <- K5. apply (cp_output _ _ _ _ _ _ _ _ Ho); [rewrite K2; exact I0|rewrite K2, K5; exact I3|rewrite K2, K3; exact I2].
  Qed.

  (** ** Where a run without convergence criterion stops *)
  Lemma run_residual_nonneg : forall fuel s0 s tr, 0 <= sv_res_u s0 -> run c o fuel s0 = Some (Ok (s, tr)) -> 0 <= sv_res_u s.
  Proof.
    intros fuel s0 s tr H0 E.
    destruct (run_start _ _ _ _ _ _ E) as (s1 & s2 & s4 & trl & ev' & _ & _ & _ & _ & Hr & _ & _ & _ & Hsame & Hl & Ho & -> & ->).
    assert (Hres : forall u b u1 ev1, 0 <= sv_res_u u -> stopConditionMet c o u = (b, u1, ev1) -> 0 <= sv_res_u u1).
    { intros u b u1 ev1 Hu Hst. destruct (stop_cases _ _ _ _ _ _ Hst) as (_ & _ & _ & _ & _ & KK).
      destruct KK as [(_ & -> & _)|(_ & _ & [(_ & -> & _)|(_ & -> & _)])]; auto.
      unfold calculateResiduals. cbn [sv_res_u]. destruct (Nat.ltb _ 100); [exact Hu|apply sqrt_pos]. }
    destruct (loop_inv c o (fun s _ => 0 <= sv_res_u s)) with (fuel := fuel) (s := s2) (tr := [@EvCollide D (sv_start s0)]) (s' := s4) (tr' := trl)
      as (s5 & tr5 & ev5 & HI & Hst & Htr).
    - intros u tr' u1 ev1 u2 ev2 HI Hst Hit.
      destruct (iterate_ok _ _ _ _ _ Hit) as (e1 & ef & sf & x & _ & _ & _ & _ & _ & _ & Hsm).
      destruct Hsm as (_ & _ & _ & _ & _ & _ & M7 & _). rewrite M7. unfold stream. destruct (rc_semi_lagrangian c); cbn [sv_res_u next_i]; eapply Hres; eauto.
    - destruct Hsame as (_ & _ & _ & _ & _ & _ & M7 & _). rewrite M7, Hr. exact H0.
    - exact Hl.
    - eapply Hres; eauto.
  Qed.

  Lemma expected_stream : forall a b i, (a <= i < b)%nat -> In (Stream i) (expected_steps a b).
  Proof.
    intros a b i H. unfold expected_steps. right. apply in_or_app. left. apply in_flat_map. exists i. split; [apply in_seq; lia|].
    right. left. reflexivity.
  Qed.

  Lemma step_stream_event : forall (tr : list event) i, In (Stream i) (steps_of tr) -> exists t, In (EvStream i t) tr.
  Proof.
    intros tr i H. unfold steps_of in H. apply in_flat_map in H. destruct H as (e & H1 & H2).
    destruct e; cbn [step_of In] in H2; try contradiction; destruct H2 as [H2|[]]; try discriminate.
    inversion H2; subst. eexists. exact H1.
  Qed.

  (** the final iteration is the first one at which the iteration or time limit is reached *)
  Lemma run_final : forall fuel s0 s tr, constant_step c o -> rc_threshold c <= 0 -> 0 <= sv_res_u s0 ->
    run c o fuel s0 = Some (Ok (s, tr)) ->
    let due i := (rc_steps c <= i)%nat \/ rc_end_time c <= sv_time s0 + INR (i - sv_start s0) * sv_dt s0 in
    due (sv_i s) /\ forall i, (sv_start s0 <= i < sv_i s)%nat -> ~ due i.
  Proof.
    intros fuel s0 s tr Hdt Hth Hr E due.
    destruct (run_stops _ _ _ _ _ _ E) as [H1 H2].
    destruct (run_time _ _ _ _ _ _ Hdt E) as (T1 & T2 & T3).
    destruct (run_steps _ _ _ _ _ _ E) as (S1 & S2 & S3).
    pose proof (run_residual_nonneg _ _ _ _ Hr E) as Hres. split.
    - destruct H2 as [H2|[H2|[_ H2]]]; [left; exact H2|right; rewrite <- T1; exact H2|lra].
    - intros i Hi Hd.
      destruct (step_stream_event tr i) as [t Ht]; [rewrite S3; apply expected_stream; exact Hi|].
      destruct (H1 _ _ Ht) as [A B]. rewrite (T3 _ _ Ht) in B. destruct Hd as [Hd|Hd]; [lia|lra].
  Qed.
End Run.

(** ** Restart *)
Section Restart.
  Context {X D : Type}.
  Variables (c : run_config) (o : solver_ops X D).

  (** the uninterrupted and the restarted run from the checkpoint on *)
  Lemma restart_ok : forall fuel s0 s tr n st d fuel' s0' s' tr',
    constant_step c o -> rc_compressible c = false ->
    run c o fuel s0 = Some (Ok (s, tr)) -> In (EvCheckpoint n st d) tr ->
    so_data o (sv_x s0') = d -> sv_start s0' = n -> sv_dt s0' = sv_dt s0 ->
    run c o fuel' s0' = Some (Ok (s', tr')) ->
    exists xn y, so_data o xn = d /\ so_collide o (sv_x s0') = Ok y /\
      evolve c o (sv_i s - n) n (cs_time st) (sv_dt s0) xn = Ok (sv_x s) /\
      evolve c o (sv_i s' - n) n (sv_time s0') (sv_dt s0) y = Ok (sv_x s').
  Proof.
    intros fuel s0 s tr n st d fuel' s0' s' tr' Hdt Hnc E Hin Hd Hst Hdts E'.
    destruct (run_evolve _ _ _ _ _ _ Hdt Hnc E) as (y0 & _ & _ & _ & HF).
    destruct (run_evolve _ _ _ _ _ _ Hdt Hnc E') as (y & Hy & _ & Hev & _).
    rewrite Forall_forall in HF. specialize (HF _ Hin). destruct HF as (A & B & C & _ & _ & xn & F & G & K).
    exists xn, y. rewrite Hst, Hdts in Hev. repeat split; auto.
  Qed.

  Lemma restart_same : forall fuel s0 s tr n st d fuel' s0' s' tr',
    constant_step c o -> rc_compressible c = false -> rc_threshold c <= 0 ->
    0 <= sv_res_u s0 -> 0 <= sv_res_u s0' ->
    run c o fuel s0 = Some (Ok (s, tr)) -> In (EvCheckpoint n st d) tr ->
    so_data o (sv_x s0') = d -> sv_start s0' = n -> sv_dt s0' = sv_dt s0 -> sv_time s0' = cs_time st ->
    (forall y0 x, so_collide o (sv_x s0) = Ok y0 ->
       evolve c o (n - sv_start s0) (sv_start s0) (sv_time s0) (sv_dt s0) y0 = Ok x -> so_collide o (sv_x s0') = Ok x) ->
    run c o fuel' s0' = Some (Ok (s', tr')) ->
    sv_i s' = sv_i s /\ sv_time s' = sv_time s /\ sv_x s' = sv_x s.
  Proof.
    intros fuel s0 s tr n st d fuel' s0' s' tr' Hdt Hnc Hth Hr0 Hr0' E Hin Hd Hst Hdts Htime Hidem E'.
    destruct (run_final _ _ _ _ _ _ Hdt Hth Hr0 E) as [P1 P2].
    destruct (run_final _ _ _ _ _ _ Hdt Hth Hr0' E') as [Q1 Q2].
    destruct (run_evolve _ _ _ _ _ _ Hdt Hnc E) as (y0 & Hy0 & Hle & _ & HF).
    destruct (run_evolve _ _ _ _ _ _ Hdt Hnc E') as (y & B & _ & F & _).
    rewrite Forall_forall in HF. specialize (HF _ Hin). destruct HF as (R1 & R2 & R3 & _ & _ & xn & V & _ & C).
    assert (y = xn) by (specialize (Hidem y0 xn Hy0 V); congruence). subst y.
    destruct (run_steps _ _ _ _ _ _ E') as (S1 & _ & _).
    destruct (run_time _ _ _ _ _ _ Hdt E) as (T1 & _ & _). destruct (run_time _ _ _ _ _ _ Hdt E') as (T1' & _ & _).
    rewrite Hst in *. rewrite Hdts, Htime, R3 in *.
    assert (Hsplit : forall i, (n <= i)%nat -> sv_time s0 + INR (n - sv_start s0) * sv_dt s0 + INR (i - n) * sv_dt s0 =
                               sv_time s0 + INR (i - sv_start s0) * sv_dt s0).
    { intros i Hi. replace (i - sv_start s0)%nat with ((n - sv_start s0) + (i - n))%nat by lia. rewrite plus_INR. ring. }
    assert (Heq : sv_i s' = sv_i s).
    { destruct (Nat.lt_trichotomy (sv_i s') (sv_i s)) as [H|[H|H]]; [|exact H|].
      - exfalso. apply (P2 (sv_i s')); [lia|]. rewrite Hsplit in Q1 by lia. exact Q1.
      - exfalso. apply (Q2 (sv_i s)); [lia|]. rewrite Hsplit by lia. exact P1. }
    rewrite Heq in *. split; [reflexivity|split; [rewrite T1, T1', Hsplit by lia; reflexivity|]].
    rewrite C in F. congruence.
  Qed.
End Restart.
