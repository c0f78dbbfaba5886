(** Whole compressible runs. *)
From Verif Require Import Prelude BigSum ModelConfigNames ModelStencils ModelEquilibria ModelCollision ModelRun ModelCheckpoint ModelCompressible SpecRun ProofRun ProofRun2 ProofRestart ProofRestart2 ProofSimulation2.
Local Open Scope R_scope.

(** The populations with which the first collision of a run starts. *)
Definition first_state {X D} (c : run_config) (o : solver_ops X D) (s0 : solver X) : X :=
  if (rc_compressible c && Nat.leb (sv_start s0) 1)%bool then so_set_equilibrium o (sv_x s0) else sv_x s0.

Section Run.
  Context {X D : Type}.
  Variables (c : run_config) (o : solver_ops X D).
  Notation solver := (solver X).
  Notation event := (event D).
  Hypothesis Hin : rc_init c = EQUILIBRIUM.

  Lemma run_start_g : forall fuel s0 s tr, run c o fuel s0 = Some (Ok (s, tr)) ->
    exists s1 s2 s4 trl ev', collide o s1 = Ok (s2, [EvCollide (sv_start s0)]) /\
      sv_start s1 = sv_start s0 /\ sv_i s1 = sv_start s0 /\ sv_time s1 = sv_time s0 /\ sv_dt s1 = sv_dt s0 /\ sv_x s1 = first_state c o s0 /\
      same_but_x s1 s2 /\
      loop c o fuel s2 [EvCollide (sv_start s0)] = Some (Ok (s4, trl)) /\
      output c o s4 (sv_i s4) true = Ok ev' /\ s = s4 /\ tr = trl ++ ev'.
  Proof.
    intros fuel s0 s tr. unfold run. cbv zeta.
    set (s1' := {| sv_start := sv_start s0 |}).
    set (m := if (rc_compressible c && Nat.leb (sv_i s1') 1)%bool then _ else _).
    assert (Hm : exists s1 n, m = Ok (s1, n) /\ sv_start s1 = sv_start s0 /\ sv_i s1 = sv_start s0 /\ sv_time s1 = sv_time s0 /\
      sv_dt s1 = sv_dt s0 /\ sv_x s1 = first_state c o s0).
    { subst m. unfold first_state. change (sv_i s1') with (sv_start s0). destruct (rc_compressible c && Nat.leb (sv_start s0) 1)%bool.
      - unfold initializeDistributions_compressible. rewrite Hin. eexists _, _. split; [reflexivity|]. repeat split.
      - eexists _, _. split; [reflexivity|]. repeat split. }
    destruct Hm as (s1 & n & -> & A & B & C & E & F). cbn [obind fst snd].
    destruct (collide o s1) as [[s2 ev]| |] eqn:Ec; try discriminate.
    destruct (collide_ok _ _ _ _ Ec) as [x [Hx [Hs2 Hev]]]. rewrite B in Hev. subst ev.
    destruct (loop c o fuel s2 [EvCollide (sv_start s0)]) as [[[s4 trl]| |]|] eqn:El; try discriminate.
    destruct (output c o s4 (sv_i s4) true) as [ev'| |] eqn:Eo; try discriminate.
    intro R; inversion R; subst s tr. exists s1, s2, s4, trl, ev'. repeat split; auto; subst s2; apply same_set_x.
  Qed.

  Lemma run_evolve_g : forall fuel s0 s tr, constant_step c o ->
    run c o fuel s0 = Some (Ok (s, tr)) ->
    exists y, so_collide o (first_state c o s0) = Ok y /\
      (sv_start s0 <= sv_i s)%nat /\
      evolve c o (sv_i s - sv_start s0) (sv_start s0) (sv_time s0) (sv_dt s0) y = Ok (sv_x s) /\
      Forall (cp_ok c o (sv_start s0) (sv_time s0) (sv_dt s0) y (sv_i s) (sv_x s)) tr.
  Proof.
    intros fuel s0 s tr Hdt E.
    destruct (run_start_g _ _ _ _ E) as (s1 & s2 & s4 & trl & ev' & Hc & Hs & Hi & Ht & Hd & Hx1 & Hsame & Hl & Ho & -> & ->).
    destruct (collide_ok _ _ _ _ Hc) as (y & Hy & Hs2 & _). rewrite Hx1 in Hy. exists y. split; [exact Hy|].
    set (a := sv_start s0) in *. set (t0 := sv_time s0) in *. set (dt := sv_dt s0) in *.
    set (I := fun (s : solver) (tr : list event) => (a <= sv_i s)%nat /\ sv_dt s = dt /\
       sv_time s = t0 + INR (sv_i s - a) * dt /\ evolve c o (sv_i s - a) a t0 dt y = Ok (sv_x s) /\
       Forall (cp_ok c o a t0 dt y (sv_i s) (sv_x s)) tr).
    destruct (loop_inv c o I) with (fuel := fuel) (s := s2) (tr := [@EvCollide D a]) (s' := s4) (tr' := trl) as (s5 & tr5 & ev5 & HI & Hst & Htr).
    - intros u tr' u1 ev1 u2 ev2 (I0 & I1 & I2 & I3 & I4) Hst Hit.
      destruct (stop_cases _ _ _ _ _ _ Hst) as (K1 & K2 & K3 & K4 & K5 & KK).
      destruct (iterate_evolve _ _ _ _ _ Hdt Hit) as (B1 & B2 & B3 & B4 & B5).
      rewrite K2, K3, K4, K5 in B1. rewrite K2 in B2. rewrite K3, K4 in B4. rewrite K4 in B5.
      unfold I. rewrite B2, B4, B5. rewrite I1, I2 in B1.
      assert (Hnext : evolve c o (S (sv_i u) - a) a t0 dt y = Ok (sv_x u2)).
      { replace (S (sv_i u) - a)%nat with (sv_i u - a + 1)%nat by lia. rewrite evolve_app, I3. cbn [obind].
        replace (a + (sv_i u - a))%nat with (sv_i u) by lia. exact B1. }
      split; [lia|split; [exact I1|split; [|split; [exact Hnext|]]]].
      + rewrite I2, I1. replace (S (sv_i u) - a)%nat with (S (sv_i u - a)) by lia. rewrite S_INR. ring.
      + assert (Hlift : forall l, Forall (cp_ok c o a t0 dt y (sv_i u) (sv_x u)) l -> Forall (cp_ok c o a t0 dt y (S (sv_i u)) (sv_x u2)) l).
        { intros l Hl'. eapply Forall_impl; [|exact Hl']. intros e. apply cp_ok_step; [exact B1|exact I0]. }
        apply Forall_app; split; [apply Hlift; exact I4|]. apply Forall_app; split.
        * destruct KK as [(_ & _ & -> & _)|(_ & _ & [(_ & _ & -> & _)|(_ & _ & -> & _)])]; repeat constructor.
          exists (sv_x u). split; [exact I3|reflexivity].
        * destruct (iterate_ok _ _ _ _ _ Hit) as (e1 & ef & sf & x & Hout & _ & _ & _ & Hef & -> & _).
          apply Forall_app; split.
          { assert (HF : Forall (cp_ok c o a t0 dt y (sv_i u1) (sv_x u1)) e1).
            { apply (cp_output c o _ _ _ _ _ _ _ _ Hout); [rewrite K2; exact I0|rewrite K2, K5; exact I3|rewrite K2, K3; exact I2]. }
            rewrite K2, K5 in HF. apply Hlift. exact HF. }
          { destruct Hef as [-> | ->]; repeat constructor. }
    - destruct Hsame as (M1 & M2 & M3 & M4 & _). unfold I. rewrite M2, M3, M4, Hi, Ht, Hd, Nat.sub_diag. cbn [INR evolve].
      split; [apply Nat.le_refl|split; [reflexivity|split; [ring|split; [subst s2; reflexivity|]]]]. repeat constructor.
    - exact Hl.
    - destruct HI as (I0 & I1 & I2 & I3 & I4). destruct (stop_cases _ _ _ _ _ _ Hst) as (K1 & K2 & K3 & K4 & K5 & KK).
      rewrite K2, K5. split; [exact I0|split; [exact I3|]].
      subst trl. apply Forall_app; split; [apply Forall_app; split; [exact I4|]|].
      + destruct KK as [(_ & _ & -> & _)|(_ & _ & [(_ & _ & -> & _)|(_ & _ & -> & _)])]; repeat constructor.
        exists (sv_x s5). split; [exact I3|reflexivity].
      + rewrite <- K2, <- K5. apply (cp_output c o _ _ _ _ _ _ _ _ Ho); [rewrite K2; exact I0|rewrite K2, K5; exact I3|rewrite K2, K3; exact I2].
  Qed.

  (** A quantity that neither collisions nor streaming change. *)
  Variables (M : X -> R) (dt : R).
  Hypothesis Hf : rc_filtering c = false.
  Hypothesis Hp : so_processors o = [].
  Hypothesis Hc : forall x y, so_collide o x = Ok y -> M y = M x.
  Hypothesis Ha : forall t x, M (advected c o t dt x) = M x.
  Lemma run_keeps fuel s0 s tr : constant_step c o -> sv_dt s0 = dt -> run c o fuel s0 = Some (Ok (s, tr)) ->
    M (sv_x s) = M (first_state c o s0) /\
    forall n st d, In (EvCheckpoint n st d) tr -> exists x, d = so_data o x /\ M x = M (first_state c o s0).
  Proof.
    intros Hdt Edt E. destruct (run_evolve_g fuel s0 s tr Hdt E) as (y & Hy & _ & Hev & HF). apply Hc in Hy. rewrite Edt in *.
    assert (B : forall k i t x z, evolve c o k i t dt x = Ok z -> M z = M x).
    { intros k i t x z Ez. apply (evolve_books c o M 0 0 dt Hf Hp) in Ez; [rewrite Ez; ring| |].
      - intros u v Huv. rewrite (Hc _ _ Huv). ring.
      - intros t' u. rewrite Ha. ring. }
    split; [rewrite (B _ _ _ _ _ Hev); exact Hy|]. intros n st d Hi. rewrite Forall_forall in HF. specialize (HF _ Hi).
    destruct HF as (_ & _ & _ & _ & _ & x & Hx & -> & _). exists x. split; [reflexivity|]. rewrite (B _ _ _ _ _ Hx). exact Hy.
  Qed.
End Run.
