(** Lemmas about the time loop: checkpoints, residuals, initialisation, restart. *)
From Verif Require Import Prelude ModelConfigNames ModelRun SpecRun ProofRun.
From Coq Require Import Sorted.
Open Scope R_scope.

Section Run.
  Context {X D : Type}.
  Variables (c : run_config) (o : solver_ops X D).
  Notation solver := (solver X).
  Notation event := (event D).

  (** ** C19: checkpoint schedule *)
  Lemma cps_app : forall l l' : list event, checkpoints_of (l ++ l') = checkpoints_of l ++ checkpoints_of l'.
  Proof. intros; apply flat_map_app. Qed.

  Lemma cps_quiet : forall l : list event, forallb quiet l = true -> checkpoints_of l = [].
  Proof.
    induction l as [|e l IH]; intro H; [reflexivity|]. simpl in H. apply andb_prop in H. destruct H as [H1 H2].
    change (match e with EvCheckpoint i _ _ => [i] | _ => [] end ++ checkpoints_of l = []). rewrite (IH H2).
    destruct e; simpl in *; try discriminate; reflexivity.
  Qed.

  Lemma cps_output : forall s i fin ev, output c o s i fin = Ok ev ->
    checkpoints_of ev = if cp_cond c s i fin then [sv_i s] else [].
  Proof.
    intros s i fin ev E. destruct (output_ok _ _ _ _ _ _ E) as [files [Hq ->]].
    change (checkpoints_of (files ++ (if cp_cond c s i fin then [cp_event c o s] else [])) = if cp_cond c s i fin then [sv_i s] else []).
    rewrite cps_app, (cps_quiet _ Hq). destruct (cp_cond c s i fin); reflexivity.
  Qed.

  Lemma cps_stop : forall s b s' ev, stopConditionMet c o s = (b, s', ev) -> checkpoints_of ev = [].
  Proof.
    intros s b s' ev E. destruct (stop_cases _ _ _ _ _ _ E) as (_ & _ & _ & _ & _ & [(_ & _ & -> & _)|(_ & _ & [(_ & _ & -> & _)|(_ & _ & -> & _)])]); reflexivity.
  Qed.

  Lemma cps_iterate : forall s s2 ev, iterate c o s = Ok (s2, ev) ->
    checkpoints_of ev = if cp_cond c s (sv_i s) false then [sv_i s] else [].
  Proof.
    intros s s2 ev E. destruct (iterate_ok _ _ _ _ _ E) as (e1 & ef & sf & x & Ho & _ & _ & _ & Hef & -> & _).
    rewrite !cps_app, (cps_output _ _ _ _ Ho).
    destruct Hef as [-> | ->]; cbn [checkpoints_of flat_map app]; apply app_nil_r.
  Qed.

  (** the boolean test against the schedule *)
  Lemma cp_cond_due : forall (s : solver) (fin : bool) b, sv_start s <> sv_i s \/ sv_start s = sv_i s ->
    (fin = true <-> sv_i s = b) ->
    (cp_cond c s (sv_i s) fin = true <-> checkpoint_due c (sv_start s) b (sv_i s)).
  Proof.
    intros s fin b _ Hfin. unfold cp_cond, checkpoint_due, switched_on.
    rewrite !andb_true_iff, orb_true_iff, !negb_true_iff, Nat.eqb_eq, Nat.eqb_neq.
    rewrite andb_false_iff, negb_false_iff.
    destruct (Rle_dec (INR (rc_checkpoint_interval c)) (10^8)) as [Hr|Hr].
    - rewrite Hfin. intuition congruence.
    - intuition (try congruence; try discriminate).
  Qed.

  Lemma run_checkpoints : forall fuel s0 s tr, run c o fuel s0 = Some (Ok (s, tr)) ->
    let a := sv_start s0 in let b := sv_i s in
    (forall i, In i (checkpoints_of tr) <-> (a <= i <= b)%nat /\ checkpoint_due c a b i) /\
    StronglySorted lt (checkpoints_of tr).
  Proof.
    intros fuel s0 s tr E a b.
    destruct (run_start _ _ _ _ _ _ E) as (s1 & s2 & s4 & trl & ev' & Hc & Hs & Hi & _ & _ & _ & _ & _ & Hsame & Hl & Ho & Es & Etr).
    set (I := fun (s : solver) (tr : list event) => sv_start s = a /\ (a <= sv_i s)%nat /\
       (forall i, In i (checkpoints_of tr) <-> (a <= i < sv_i s)%nat /\ checkpoint_due c a (sv_i s) i) /\
       StronglySorted lt (checkpoints_of tr)).
    assert (Hsort : forall l n, StronglySorted lt l -> (forall i, In i l -> (i < n)%nat) -> StronglySorted lt (l ++ [n])).
    { induction l as [|x l IH]; intros n H1 H2; [constructor; constructor|].
      inversion H1; subst. cbn [app]. constructor; [apply IH; auto; intros; apply H2; right; auto|].
      apply Forall_app; split; [assumption|]. constructor; [apply H2; left; reflexivity|constructor]. }
    destruct (loop_inv c o I) with (fuel := fuel) (s := s2) (tr := [@EvCollide D a]) (s' := s4) (tr' := trl) as (s5 & tr5 & ev5 & HI & Hst & Htr).
    - intros u tr' u1 ev1 u2 ev2 (I1 & I2 & I3 & I4) Hst Hit.
      destruct (stop_cases _ _ _ _ _ _ Hst) as (K1 & K2 & _).
      destruct (iterate_steps _ _ _ _ _ Hit) as (J1 & J2 & _).
      assert (Hcp : checkpoints_of (tr' ++ ev1 ++ ev2) = checkpoints_of tr' ++ (if cp_cond c u1 (sv_i u1) false then [sv_i u1] else [])).
      { rewrite !cps_app, (cps_stop _ _ _ _ Hst), (cps_iterate _ _ _ Hit). reflexivity. }
      unfold I. rewrite Hcp, J1, J2, K1, K2.
      pose proof (cp_cond_due u1 false (S (sv_i u1)) ltac:(lia) ltac:(split; [discriminate|lia])) as Hdue.
      rewrite K1, K2, I1 in Hdue.
      assert (Hwk : forall i, (i < sv_i u)%nat -> (checkpoint_due c a (sv_i u) i <-> checkpoint_due c a (S (sv_i u)) i)).
      { intros i Hlt. unfold checkpoint_due. split; intros [[H|H] R]; try lia; split; auto. }
      split; [exact I1|split; [lia|split]].
      + intro i. rewrite in_app_iff, I3. destruct (cp_cond c u1 (sv_i u) false).
        * split.
          { intros [[H1 H2]|[H|[]]].
            - split; [lia|apply Hwk; [lia|assumption]].
            - subst i. split; [lia|]. apply Hdue. reflexivity. }
          { intros [H1 H2]. destruct (Nat.eq_dec i (sv_i u)) as [->|Hne]; [right; left; reflexivity|].
            left. split; [lia|apply Hwk; [lia|assumption]]. }
        * split.
          { intros [[H1 H2]|[]]. split; [lia|apply Hwk; [lia|assumption]]. }
          { intros [H1 H2]. left. destruct (Nat.eq_dec i (sv_i u)) as [->|Hne].
            - apply Hdue in H2. discriminate.
            - split; [lia|apply Hwk; [lia|assumption]]. }
      + destruct (cp_cond c u1 (sv_i u) false); [|rewrite app_nil_r; exact I4].
        apply Hsort; [exact I4|]. intros i Hin. apply I3 in Hin. lia.
    - destruct Hsame as (M1 & M2 & _). unfold I. rewrite M1, M2, Hs, Hi. split; [reflexivity|split; [apply Nat.le_refl|split]].
      + intro i. split; [intros []|]. intros [H _]. fold a in H. lia.
      + constructor.
    - exact Hl.
    - destruct HI as (I1 & I2 & I3 & I4). destruct (stop_cases _ _ _ _ _ _ Hst) as (K1 & K2 & _).
      subst trl tr. subst b. subst s. rewrite !cps_app, (cps_stop _ _ _ _ Hst), (cps_output _ _ _ _ Ho), app_nil_r, K2.
      pose proof (cp_cond_due s4 true (sv_i s4) ltac:(lia) ltac:(tauto)) as Hdue. rewrite K1, K2, I1 in Hdue.
      split.
      + intro i. rewrite in_app_iff, I3. destruct (cp_cond c s4 (sv_i s5) true).
        * split.
          { intros [[H1 H2]|[H|[]]]; [split; [lia|assumption]|]. subst i. split; [lia|]. apply Hdue. reflexivity. }
          { intros [H1 H2]. destruct (Nat.eq_dec i (sv_i s5)) as [->|Hne]; [right; left; reflexivity|]. left. split; [lia|assumption]. }
        * split.
          { intros [[H1 H2]|[]]; split; [lia|assumption]. }
          { intros [H1 H2]. left. destruct (Nat.eq_dec i (sv_i s5)) as [->|Hne]; [apply Hdue in H2; discriminate|]. split; [lia|assumption]. }
      + destruct (cp_cond c s4 (sv_i s5) true); [|rewrite app_nil_r; exact I4].
        apply Hsort; [exact I4|]. intros i Hin. apply I3 in Hin. lia.
  Qed.

  (** ** C25: residuals *)
  Lemma res_app : forall l l' : list event, residuals_of (l ++ l') = residuals_of l ++ residuals_of l'.
  Proof. intros; apply flat_map_app. Qed.

  Lemma res_quiet : forall l : list event, forallb quiet l = true -> residuals_of l = [].
  Proof.
    induction l as [|e l IH]; intro H; [reflexivity|]. simpl in H. apply andb_prop in H. destruct H as [H1 H2].
    change (match e with EvResidual i u r => [(i, u, r)] | _ => [] end ++ residuals_of l = []). rewrite (IH H2).
    destruct e; simpl in *; try discriminate; reflexivity.
  Qed.

  Lemma res_output : forall s i fin ev, output c o s i fin = Ok ev -> residuals_of ev = [].
  Proof.
    intros s i fin ev E. destruct (output_ok _ _ _ _ _ _ E) as [files [Hq ->]].
    change (residuals_of (files ++ (if cp_cond c s i fin then [cp_event c o s] else [])) = []).
    rewrite res_app, (res_quiet _ Hq). destruct (cp_cond c s i fin); reflexivity.
  Qed.

  Lemma res_iterate : forall s s2 ev, iterate c o s = Ok (s2, ev) -> residuals_of ev = [].
  Proof.
    intros s s2 ev E. destruct (iterate_ok _ _ _ _ _ E) as (e1 & ef & sf & x & Ho & _ & _ & _ & Hef & -> & _).
    rewrite !res_app, (res_output _ _ _ _ Ho). destruct Hef as [-> | ->]; reflexivity.
  Qed.

  Lemma linfty_max : forall nodes g, nodes <> [] -> (forall n, 0 <= g n) ->
    (forall n, In n nodes -> g n <= linfty nodes g) /\ exists n, In n nodes /\ linfty nodes g = g n.
  Proof.
    intros nodes g Hne Hg. induction nodes as [|x l IH]; [contradiction|].
    cbn [linfty fold_right]. change (fold_right (fun n m => Rmax (Rabs (g n)) m) 0 l) with (linfty l g).
    rewrite (Rabs_pos_eq (g x)) by apply Hg.
    destruct l as [|y l].
    - unfold linfty; simpl. rewrite Rmax_left by apply Hg. split.
      + intros n [->|[]]; lra.
      + exists x; split; [left|]; reflexivity.
    - destruct IH as [IH1 [m [IH2 IH3]]]; [discriminate|]. split.
      + intros n [->|Hin]; [apply Rmax_l|]. eapply Rle_trans; [apply IH1; exact Hin|apply Rmax_r].
      + destruct (Rle_lt_dec (linfty (y :: l) g) (g x)) as [H|H].
        * exists x. split; [left; reflexivity|]. apply Rmax_left; exact H.
        * exists m. split; [right; exact IH2|]. rewrite Rmax_right by lra. exact IH3.
  Qed.

  Lemma sumf_ext_r : forall n f g, (forall i, (i < n)%nat -> f i = g i) -> sumf n f = sumf n g.
  Proof. induction n as [|n IH]; intros f g H; [reflexivity|]. simpl. rewrite (IH f g), H; auto. Qed.
  Lemma sumf_nonneg_r : forall n f, (forall i, 0 <= f i) -> 0 <= sumf n f.
  Proof. induction n as [|n IH]; intros f H; simpl; [lra|]. pose proof (IH f H). pose proof (H n). lra. Qed.

  Lemma distance_ok : forall nodes d u v, nodes <> [] ->
    max_distance nodes d u v (sqrt (linfty nodes (fun n => sumf d (fun a => (u n a - v n a) * (u n a - v n a))))).
  Proof.
    intros nodes d u v Hne.
    assert (He : forall n, sumf d (fun a => (u n a - v n a) ^ 2) = sumf d (fun a => (u n a - v n a) * (u n a - v n a)))
      by (intro n; apply sumf_ext_r; intros; ring).
    set (g := fun n => sumf d (fun a => (u n a - v n a) * (u n a - v n a))) in *.
    assert (Hg : forall n, 0 <= g n) by (intro n; apply sumf_nonneg_r; intro i; apply Rle_0_sqr).
    destruct (linfty_max nodes g Hne Hg) as [H1 [m [H2 H3]]]. split.
    - intros n Hn. rewrite He. apply sqrt_le_1; [apply Hg| |apply H1; exact Hn]. rewrite H3; apply Hg.
    - exists m. split; [exact H2|]. rewrite He, H3. reflexivity.
  Qed.

  (** last evaluation in a trace *)
  Definition last_eval (tr : list event) : option (nat * (nat -> nat -> R) * R) :=
    nth_error (rev (residuals_of tr)) 0.

  Lemma consec_snoc : forall {A} (l : list A) z x y, consecutive (l ++ [z]) x y ->
    consecutive l x y \/ (y = z /\ nth_error (rev l) 0 = Some x).
  Proof.
    intros A l z x y. induction l as [|w l IH]; cbn [app]; intro H.
    - inversion H as [|? ? ? ? H']; inversion H'.
    - inversion H as [p q l' E0 E1 E2|p q r l' H' E0 E1]; subst.
      + destruct l as [|v l]; cbn [app] in *; match goal with E : _ :: _ = _ :: _ |- _ => inversion E; subst end.
        * right. split; reflexivity.
        * left. constructor.
      + destruct (IH H') as [L|[L1 L2]]; [left; constructor; exact L|]. right. split; [exact L1|].
        cbn [rev]. destruct (rev l) as [|v l0]; [discriminate|]. exact L2.
  Qed.

  Lemma run_residuals : forall fuel s0 s tr, so_nodes o <> [] -> run c o fuel s0 = Some (Ok (s, tr)) ->
    (forall i u r i' u' r', consecutive (residuals_of tr) (i, u, r) (i', u', r') ->
       i' = (i + 100)%nat /\ max_distance (so_nodes o) (so_dim o) u u' r') /\
    (forall i u r, In (i, u, r) (residuals_of tr) -> (i mod 100 = 0)%nat /\ (sv_start s0 <= i <= sv_i s)%nat) /\
    (forall i u r l, residuals_of tr = (i, u, r) :: l -> r = sv_res_u s0 /\ (i < sv_start s0 + 100)%nat).
  Proof.
    intros fuel s0 s tr Hne E.
    destruct (run_start _ _ _ _ _ _ E) as (s1 & s2 & s4 & trl & ev' & Hc & Hs & Hi & _ & Hres & _ & _ & _ & Hsame & Hl & Ho & Es & Etr).
    set (a := sv_start s0) in *.
    (* every multiple of 100 in [a, i) has been evaluated, the last one is remembered *)
    set (J := fun (i : nat) (s : solver) (tr : list event) =>
       (forall i u r i' u' r', consecutive (residuals_of tr) (i, u, r) (i', u', r') ->
          i' = (i + 100)%nat /\ max_distance (so_nodes o) (so_dim o) u u' r') /\
       (forall j u r, In (j, u, r) (residuals_of tr) -> (j mod 100 = 0)%nat /\ (a <= j < i)%nat) /\
       (forall j u r l, residuals_of tr = (j, u, r) :: l -> r = sv_res_u s0 /\ (j < a + 100)%nat) /\
       (match last_eval tr with
        | None => sv_res_u s = sv_res_u s0 /\ (i <= (a + 99) / 100 * 100)%nat
        | Some (j, u, r) => sv_tmp_u s = u /\ (a <= j < i)%nat /\ (i <= j + 100)%nat end)).
    set (I := fun (s : solver) (tr : list event) => sv_start s = a /\ (a <= sv_i s)%nat /\ J (sv_i s) s tr).
    assert (Hstop : forall u tr b u1 ev1, I u tr -> stopConditionMet c o u = (b, u1, ev1) ->
       sv_start u1 = a /\ sv_i u1 = sv_i u /\ (b = false -> J (S (sv_i u)) u1 (tr ++ ev1)) /\
       (b = true -> J (S (sv_i u)) u1 (tr ++ ev1) \/ J (sv_i u) u1 (tr ++ ev1))).
    { intros u tr0 b u1 ev1 (I1 & I2 & J1 & J2 & J3 & J4) Hst.
      destruct (stop_cases _ _ _ _ _ _ Hst) as (K1 & K2 & K3 & K4 & K5 & KK).
      rewrite K1. split; [exact I1|split; [exact K2|]].
      destruct KK as [(Hb & -> & -> & _)|(_ & _ & [(Hb & -> & -> & Hm)|(Hm & Hu1 & Hev & Hbt)])].
      - subst b. split; [discriminate|]. intros _. right. rewrite app_nil_r. exact (conj J1 (conj J2 (conj J3 J4))).
      - subst b. split; [|discriminate]. intros _. rewrite app_nil_r. unfold J. split; [exact J1|split; [|split; [exact J3|]]].
        + intros j v r Hin. destruct (J2 _ _ _ Hin). split; [assumption|lia].
        + destruct (last_eval tr0) as [[[j v] r]|] eqn:El.
          * destruct J4 as (T1 & T2 & T3). split; [exact T1|split; [lia|]].
            assert (Hj : (j mod 100 = 0)%nat).
            { unfold last_eval in El. apply (J2 j v r). apply in_rev. eapply nth_error_In; exact El. }
            destruct (Nat.eq_dec (sv_i u) (j + 100)) as [Heq|Hneq]; [|lia].
            exfalso. apply Hm. rewrite Heq. rewrite <- (Nat.mul_1_l 100), Nat.mod_add by discriminate. exact Hj.
          * destruct J4 as (T1 & T2). split; [exact T1|].
            destruct (Nat.eq_dec (sv_i u) ((a + 99) / 100 * 100)) as [Heq|Hneq]; [|lia].
            exfalso. apply Hm. rewrite Heq. apply Nat.mod_mul. discriminate.
      - assert (HJ : J (S (sv_i u)) u1 (tr0 ++ ev1)); [|split; auto].
        assert (Hr : residuals_of (tr0 ++ ev1) = residuals_of tr0 ++ [(sv_i u, so_velocity o (sv_x u), sv_res_u u1)]).
        { rewrite res_app, Hev. reflexivity. }
        assert (Hle : last_eval (tr0 ++ ev1) = Some (sv_i u, so_velocity o (sv_x u), sv_res_u u1)).
        { unfold last_eval. rewrite Hr, rev_app_distr. reflexivity. }
        assert (Hfirst : last_eval tr0 = None -> residuals_of tr0 = []).
        { unfold last_eval. intro H. destruct (residuals_of tr0) as [|x l]; [reflexivity|]. exfalso.
          cbn [rev] in H. destruct (rev l ++ [x]) eqn:El; [destruct (rev l); discriminate|discriminate]. }
        unfold J. rewrite Hle, Hr.
        split; [|split; [|split]].
        + intros j v r j' v' r' Hcs. destruct (consec_snoc _ _ _ _ Hcs) as [L|[L1 L2]]; [apply (J1 j v r); exact L|].
          inversion L1; subst j' v' r'; clear L1.
          unfold last_eval in J4. rewrite L2 in J4. destruct J4 as (T1 & T2 & T3).
          assert (Hj : (j mod 100 = 0)%nat) by (apply (J2 j v r); apply in_rev; eapply nth_error_In; exact L2).
          assert (Hij : sv_i u = (j + 100)%nat).
          { rewrite Nat.mod_divide in Hm, Hj by discriminate. destruct Hm as [p Hp], Hj as [q Hq]. lia. }
          split; [exact Hij|].
          rewrite Hu1. unfold calculateResiduals. cbn [sv_res_u].
          replace (Nat.ltb (sv_i u - sv_start u) 100) with false
            by (symmetry; apply Nat.ltb_ge; rewrite I1; lia).
          rewrite T1. apply distance_ok. exact Hne.
        + intros j v r Hin. apply in_app_or in Hin. destruct Hin as [Hin|[Hin|[]]].
          * destruct (J2 _ _ _ Hin). split; [assumption|lia].
          * inversion Hin; subst. split; [exact Hm|lia].
        + intros j v r l Hl'. destruct (last_eval tr0) as [x|] eqn:El.
          * destruct (residuals_of tr0) as [|y l0] eqn:Er; [unfold last_eval in El; rewrite Er in El; discriminate|].
            cbn [app] in Hl'. inversion Hl'; subst. apply (J3 _ _ _ _ eq_refl).
          * rewrite (Hfirst eq_refl) in Hl'. inversion Hl'; subst j v r l. destruct J4 as (T1 & T2).
            assert (Hd : ((a + 99) / 100 * 100 < a + 100)%nat).
            { pose proof (Nat.mul_div_le (a + 99) 100 ltac:(discriminate)). lia. }
            split; [|lia].
            rewrite Hu1. unfold calculateResiduals. cbn [sv_res_u].
            replace (Nat.ltb (sv_i u - sv_start u) 100) with true
              by (symmetry; apply Nat.ltb_lt; rewrite I1; lia).
            exact T1.
        + rewrite Hu1. split; [reflexivity|lia]. }
    destruct (loop_inv c o I) with (fuel := fuel) (s := s2) (tr := [@EvCollide D a]) (s' := s4) (tr' := trl) as (s5 & tr5 & ev5 & HI & Hst & Htr).
    - intros u tr' u1 ev1 u2 ev2 HI Hst Hit.
      destruct (Hstop _ _ _ _ _ HI Hst) as (A1 & A2 & A3 & _). specialize (A3 eq_refl).
      destruct (iterate_steps _ _ _ _ _ Hit) as (B1 & B2 & _).
      destruct (iterate_ok _ _ _ _ _ Hit) as (e1 & ef & sf & x & _ & _ & _ & _ & _ & _ & Hsm).
      destruct Hsm as (_ & _ & _ & _ & M5 & _ & M7 & _).
      assert (Hru : sv_tmp_u u2 = sv_tmp_u u1 /\ sv_res_u u2 = sv_res_u u1).
      { rewrite M5, M7. unfold stream. destruct (rc_semi_lagrangian c); split; reflexivity. }
      destruct Hru as [Hr1 Hr2].
      assert (Hrr : residuals_of (tr' ++ ev1 ++ ev2) = residuals_of (tr' ++ ev1)).
      { rewrite !res_app, (res_iterate _ _ _ Hit), app_nil_r. reflexivity. }
      unfold I. rewrite B1, B2, A1, A2. destruct HI as (_ & I2 & _). split; [reflexivity|split; [lia|]].
      destruct A3 as (J1 & J2 & J3 & J4). unfold J, last_eval in *. rewrite Hrr, Hr1, Hr2. exact (conj J1 (conj J2 (conj J3 J4))).
    - destruct Hsame as (M1 & M2 & _ & _ & _ & _ & M7 & _). unfold I, J. rewrite M1, M2, M7, Hs, Hi.
      split; [reflexivity|split; [apply Nat.le_refl|]].
      split; [intros ? ? ? ? ? ? H; inversion H|split; [intros ? ? ? []|split; [intros ? ? ? ? H; discriminate|]]].
      unfold last_eval. cbn [residuals_of flat_map rev nth_error app]. split; [exact Hres|].
      fold a. pose proof (Nat.mod_upper_bound (a + 99) 100 ltac:(discriminate)).
      pose proof (Nat.div_mod_eq (a + 99) 100). lia.
    - exact Hl.
    - destruct (Hstop _ _ _ _ _ HI Hst) as (A1 & A2 & _ & A4). specialize (A4 eq_refl).
      assert (Hrr : residuals_of tr = residuals_of (tr5 ++ ev5)).
      { subst tr trl. rewrite !res_app, (res_output _ _ _ _ Ho), app_nil_r. reflexivity. }
      assert (HS : exists k, (k <= S (sv_i s5))%nat /\ J k s4 (tr5 ++ ev5)) by (destruct A4; eexists; split; try eassumption; lia).
      destruct HS as (k & Hk & J1 & J2 & J3 & _). rewrite Hrr. subst s. rewrite A2.
      split; [exact J1|split; [|exact J3]].
      intros i u r H. destruct (J2 _ _ _ H) as [? ?]. split; [assumption|lia].
  Qed.
End Run.
