(** Properties of applyToSolverConfiguration. *)
From Coq Require Import String.
From Verif Require Import Prelude ModelText SpecText ProofText ConfigTypes ConfigData EnumData ModelConfig SpecConfig ProofConfig ProofConfig2
  ProofConfig3 ModelCommandLine SpecCommandLine ProofCommandLine ProofCommandLine2 ProofCommandLine3.
Open Scope R_scope.
Local Open Scope string_scope.

Lemma lbm_cfl : forall n, (0 < n)%Z -> sqrt 2 * IZR n * IZR n / IZR n = IZR n * sqrt 2.
Proof. intros n H. field. apply IZR_lt in H. lra. Qed.

Lemma conflicts_nil : forall a, fst (p_conflicts a) = [].
Proof.
  intros a. unfold p_conflicts, given, check.
  destruct (a "cfl"); [reflexivity|]. destruct (a "order-fe") as [[|z|x|s]|]; cbn; try reflexivity; [destruct (Z.eqb z 2); [|reflexivity]|];
    (destruct (a "streaming") as [[|z'|x|s]|]; cbn; try reflexivity; destruct (String.eqb s "sl"); reflexivity).
Qed.

Lemma preset_is : forall a, parsed a -> good_end (the_plan a) ->
  (forall o v, last_of o (preset_list a) = Some v <-> preset a o v).
Proof.
  intros a Hp G o v. assert (G' := G). apply (good_iff a Hp) in G'. destruct G' as (NC & _ & _ & P).
  apply blocks_good in G. inversion G as [|? ? G1 Gr]; subst. inversion Gr as [|? ? G2 _]; subst. clear Gr.
  unfold preset_list, preset. unfold p_standard_lbm, p_standard_lbm_with in *. unfold given at 1 in G1. unfold given at 1 in G2.
  unfold given at 1 2. destruct (a "standard-lbm") as [w|] eqn:E1.
  - assert (E2 : a "standard-lbm-with" = None).
    { destruct (a "standard-lbm-with") eqn:E2; [|reflexivity]. exfalso. apply NC. right. left. split; congruence. }
    rewrite E2. apply comp_ok in G1. rewrite (comp_list _ _ (proj1 G1)), conflicts_nil. cbn [fst app].
    replace (sqrt 2 * 2) with (2 * sqrt 2) by ring. split.
    + intros L. left. split; [discriminate|]. apply last_of_in in L. exact L.
    + intros [[_ I]|(n & En & _)]; [|discriminate]. cbn [In] in I. repeat (destruct I as [I|I]; [injection I as <- <-; reflexivity|]). contradiction.
  - destruct (a "standard-lbm-with") as [w|] eqn:E2.
    + apply comp_ok in G2. destruct G2 as [C2 G2]. rewrite (comp_list _ _ C2), conflicts_nil.
      apply comp_ok in G2. destruct G2 as [T2 G2]. rewrite (comp_list _ _ T2).
      assert (T : fst (given a "standard-lbm" (fun _ : aval => ([] : list setting, Throw : outcome unit))) = []) by (unfold given; rewrite E1; reflexivity).
      rewrite T. destruct w as [|n|x|s]; try discriminate G2. cbn [as_int] in *. apply comp_ok in G2. rewrite (comp_list _ _ (proj1 G2)).
      assert (Pn := P n E2). unfold check. destruct (Z.ltb_spec 0 n) as [_|L]; [|lia]. unfold sets. cbn [fst app]. rewrite (lbm_cfl n Pn). split.
      * intros L. right. exists n. split; [reflexivity|]. apply last_of_in in L. cbn [In] in L |- *. tauto.
      * intros [[H _]|(m & Em & I)]; [congruence|]. injection Em as <-. cbn [In] in I.
        repeat (destruct I as [I|I]; [injection I as <- <-; reflexivity|]). contradiction.
    + cbn. split; [discriminate|]. intros [[H _]|(n & En & _)]; congruence.
Qed.

Lemma last_explicit : forall a, no_double a -> forall o v, last_of o (explicit a) = Some v <-> asks a o v.
Proof.
  intros a ND o v. rewrite asks_explicit. split; [apply last_of_in|]. intros I. apply last_of_fun; [|exact I].
  intros w J. apply (asks_fun a ND o); apply asks_explicit; assumption.
Qed.

Lemma last_plan : forall a, parsed a -> good_end (the_plan a) -> forall o v, last_of o (fst (the_plan a)) = Some v <-> effective a o v.
Proof.
  intros a Hp G o v. assert (ND : no_double a).
  { assert (G' := G). apply (good_iff a Hp) in G'. intros H. apply (proj1 G'). right. right. exact H. }
  rewrite (proj2 (plan_ok a Hp G)), last_of_app. unfold effective. rewrite <- (preset_is a Hp G o v).
  destruct (last_of o (explicit a)) as [w|] eqn:E.
  - split.
    + intros H. injection H as <-. left. apply (last_explicit a ND). exact E.
    + intros [H|[N _]]; [apply (last_explicit a ND) in H; congruence|]. exfalso. apply (N w). apply (last_explicit a ND). exact E.
  - split.
    + intros H. right. split; [|exact H]. intros w Hw. apply (last_explicit a ND) in Hw. congruence.
    + intros [H|[_ H]]; [apply (last_explicit a ND) in H; congruence|exact H].
Qed.

(** *** Storing *)

Lemma effective_owned : forall a o v, effective a o v -> o = O_SwitchOutputOff \/ owner o <> "".
Proof.
  intros a o v [(n & w & E & I)|[_ [[_ I]|(n & _ & I)]]].
  - destruct (meaning_proper n w) as [F _]. rewrite Forall_forall in F. destruct (F _ I) as [X|[[X _]|[_ X]]]; cbn [fst] in X.
    + injection X as -> _. left. reflexivity.
    + right. intros Y. rewrite Y in X. subst n. rewrite unnamed_meaning in I by reflexivity. exact I.
    + right. rewrite X. discriminate.
  - cbn [In] in I. right. repeat (destruct I as [I|I]; [injection I as <- _; discriminate|]). contradiction.
  - cbn [In] in I. right. repeat (destruct I as [I|I]; [injection I as <- _; discriminate|]). contradiction.
Qed.

Lemma kept_stored : forall o v, typed (o, v) -> o = O_SwitchOutputOff \/ owner o <> "" -> stored v (kept (Value o) v).
Proof.
  intros o v T N. destruct v as [n|x|z|b|s|l]; try reflexivity.
  - exists (print_digits 16 x). split; [destruct o; try reflexivity; exfalso; destruct N as [N|N]; [discriminate|apply N; reflexivity]|].
    split; [apply (print_accuracy 16)|]. apply print_decimal.
  - exfalso. unfold typed, well_typed in T. cbn [fst snd] in T. destruct (s_kind (setter_of o)); contradiction.
Qed.

Section Apply.
  Variable a : arguments.
  Variable h : handler.
  Hypothesis Hp : parsed a.
  Hypothesis R : reached h.

  Lemma apply_is : Forall typed (fst (the_plan a)) /\ applyToSolverConfiguration a h = exec (fst (the_plan a)) (snd (the_plan a)) h.
  Proof. destruct (follows_apply a Hp) as [T E]. split; [exact T|]. exact (E h (reached_inv h R)). Qed.

  Lemma applied : forall h', applyToSolverConfiguration a h = (Ok tt, h') ->
    (forall o v, effective a o v -> exists w, seen (Value o) h' = Ok w /\ stored v w) /\
    (forall b, (forall o v, b = Value o -> ~ effective a o v) -> seen b h' = seen b h).
  Proof.
    intros h' E. destruct apply_is as [T E0]. rewrite E0 in E.
    destruct (exec_ok _ _ h h' tt (reached_inv h R) T E) as [G F]. rewrite G in E.
    destruct (exec_seen _ h h' (reached_inv h R) T E) as [Ha Hb].
    split.
    - intros o v H. assert (L := H). apply (last_plan a Hp G) in L. exists (kept (Value o) v). split; [exact (Ha o v L)|].
      apply kept_stored; [|exact (effective_owned a o v H)]. rewrite Forall_forall in T. apply T. apply last_of_in. exact L.
    - intros b N. apply Hb. intros o v Eb L. apply (N o v Eb). apply (last_plan a Hp G). exact L.
  Qed.

  Lemma usable : reached (snd (applyToSolverConfiguration a h)).
  Proof. destruct apply_is as [T ->]. apply exec_reached; assumption. Qed.

  Lemma defined_apply : known_number a -> fst (applyToSolverConfiguration a h) <> UB.
  Proof.
    intros K. destruct apply_is as [T ->]. intros U.
    assert (C : snd (the_plan a) = UB).
    { revert U. generalize (snd (the_plan a)) as r. revert h R. induction (fst (the_plan a)) as [|x l IH]; intros h0 R0 r U; [exact U|].
      inversion T as [|? ? Tx Tl]; subst. cbn [exec] in U. unfold seq, bind in U.
      destruct (set_cases x h0 (reached_inv h0 R0) Tx) as [[h1 [S I1]]|S]; rewrite S in U; [|discriminate U].
      apply (IH Tl h1); [exact (reached_call h0 (CSet (fst x) (snd x)) h1 R0 Tx S)|exact U]. }
    exact (proj2 (plan_ub a Hp C) K).
  Qed.

  Lemma exec_throw : forall l h0, inv h0 -> Forall typed l -> fst (exec l Throw h0) = Throw.
  Proof.
    induction l as [|x l IH]; intros h0 I T; [reflexivity|]. inversion T as [|? ? Tx Tl]; subst. cbn [exec]. unfold seq, bind.
    destruct (set_cases x h0 I Tx) as [[h1 [S I1]]|S]; rewrite S; [exact (IH h1 I1 Tl)|reflexivity].
  Qed.

  Lemma conflict_rejected : conflicting a -> fst (applyToSolverConfiguration a h) = Throw.
  Proof.
    intros C. destruct apply_is as [T ->]. destruct (snd (the_plan a)) as [[]| |] eqn:E.
    - exfalso. apply (good_iff a Hp) in E. exact (proj1 E C).
    - apply exec_throw; [exact (reached_inv h R)|exact T].
    - exfalso. exact (proj1 (plan_ub a Hp E) C).
  Qed.

  Lemma value_rejected : ~ known_values a -> fst (applyToSolverConfiguration a h) <> Ok tt /\ (known_number a -> fst (applyToSolverConfiguration a h) = Throw).
  Proof.
    intros N. assert (X : fst (applyToSolverConfiguration a h) <> Ok tt).
    { destruct apply_is as [T E]. intros Eo. destruct (applyToSolverConfiguration a h) as [r h'] eqn:E'. cbn [fst] in Eo. subst r.
      symmetry in E. destruct (exec_ok _ _ h h' tt (reached_inv h R) T E) as [G _]. apply (good_iff a Hp) in G. tauto. }
    split; [exact X|]. intros K. assert (D := defined_apply K). destruct (fst (applyToSolverConfiguration a h)) as [[]| |]; congruence.
  Qed.

  Lemma lbm_conflict : (a "standard-lbm" <> None \/ a "standard-lbm-with" <> None) -> own_conflict a -> applyToSolverConfiguration a h = (Throw, h).
  Proof.
    intros H C. destruct apply_is as [T ->].
    assert (Cf : p_conflicts a = ([], Throw)).
    { assert (N : ~ good_end (p_conflicts a)) by (rewrite (conflicts_ok a Hp); tauto).
      assert (Z := conflicts_nil a). assert (Q := calm_conflicts a). unfold good_end in N. unfold calm in Q.
      destruct (p_conflicts a) as [l [[]| |]]; cbn in *; subst; congruence. }
    assert (Pl : the_plan a = ([], Throw)).
    { unfold the_plan, p_blocks. cbn [fold_right]. destruct (a "standard-lbm") as [v|] eqn:E.
      - unfold p_standard_lbm at 1, given at 1. rewrite E, Cf. reflexivity.
      - destruct H as [H|H]; [congruence|]. unfold p_standard_lbm at 1, given at 1. rewrite E.
        unfold p_standard_lbm_with at 1, given at 1. destruct (a "standard-lbm-with"); [|congruence]. rewrite Cf. reflexivity. }
    rewrite Pl. reflexivity.
  Qed.

  Lemma in_domain_fine : forall o v, typed (o, v) -> in_domain o v -> fine (o, v).
  Proof.
    intros o v T D. destruct (domain_accepted o v h (reached_inv h R) T D) as [h' E].
    exact (proj1 (call_ok (CSet o v) h h' (reached_inv h R) T E)).
  Qed.

  Lemma preset_domain : positive a -> forall o v, preset a o v -> in_domain o v.
  Proof.
    assert (S2 : 1 <= sqrt 2) by (rewrite <- sqrt_1 at 1; apply sqrt_le_1; lra).
    intros P o v [[_ I]|(n & En & I)]; cbn [In] in I.
    - destruct I as [I|[I|[I|[]]]]; injection I as <- <-; cbn; unfold ge; [lra|lia|cbv; lia].
    - assert (Pn := P n En). assert (Bn : (n < 2 ^ 31)%Z).
      { apply (proj2 (Hp (arg Int "standard-lbm-with") (AInt n) ltac:(cbn; tauto) En) n eq_refl). }
      assert (Rn : 1 <= IZR n) by (apply IZR_le; lia).
      destruct I as [I|[I|[I|[I|[]]]]]; injection I as <- <-; cbn; unfold ge; try lia; try (cbv; lia).
      apply Rle_trans with 1; [lra|]. rewrite <- (Rmult_1_l 1). apply Rmult_le_compat; lra.
  Qed.

  Lemma succeeds : ~ conflicting a -> known_values a -> in_range a -> known_number a -> exists h', applyToSolverConfiguration a h = (Ok tt, h').
  Proof.
    intros NC KV [D P] KN. assert (G : good_end (the_plan a)) by (apply (good_iff a Hp); tauto).
    destruct apply_is as [T E]. rewrite G in E.
    assert (F : Forall fine (fst (the_plan a))).
    { apply Forall_forall. intros [o v] I. apply in_domain_fine; [rewrite Forall_forall in T; exact (T _ I)|].
      rewrite (proj2 (plan_ok a Hp G)) in I. apply in_app_or in I. destruct I as [I|I].
      - apply (preset_domain P). apply (preset_is a Hp G). apply last_of_fun; [|exact I]. intros w J.
        assert (ND : NoDup (map fst (preset_list a))).
        { clear - G Hp NC. apply blocks_good in G. inversion G as [|? ? G1 Gr]; subst. inversion Gr as [|? ? G2 _]; subst.
          unfold preset_list, p_standard_lbm, p_standard_lbm_with in *. unfold given at 1 in G1. unfold given at 1 in G2. unfold given at 1 2.
          destruct (a "standard-lbm") eqn:E1.
          - assert (E2 : a "standard-lbm-with" = None).
            { destruct (a "standard-lbm-with") eqn:E2; [|reflexivity]. exfalso. apply NC. right. left. split; congruence. }
            rewrite E2. apply comp_ok in G1. rewrite (comp_list _ _ (proj1 G1)), conflicts_nil. cbn. repeat constructor; cbn; intuition discriminate.
          - destruct (a "standard-lbm-with") as [w|] eqn:E2; [|constructor].
            apply comp_ok in G2. destruct G2 as [C2 G2]. rewrite (comp_list _ _ C2), conflicts_nil.
            apply comp_ok in G2. destruct G2 as [T2 G2]. rewrite (comp_list _ _ T2).
            assert (T : fst (given a "standard-lbm" (fun _ : aval => ([] : list setting, Throw : outcome unit))) = []) by (unfold given; rewrite E1; reflexivity).
            rewrite T. destruct w as [|n|x|s]; try discriminate G2. cbn [as_int] in *. unfold check in *.
            destruct (Z.ltb 0 n); [|discriminate G2]. cbn. repeat constructor; cbn; intuition discriminate. }
        exact (nodup_fst _ o w v ND J I).
      - apply D. apply asks_explicit. exact I. }
    assert (Ef := exec_fine _ (Ok tt) h (reached_inv h R) T F). rewrite E. destruct (exec (fst (the_plan a)) (Ok tt) h) as [r h'].
    cbn in Ef. subst r. exists h'. reflexivity.
  Qed.
End Apply.

Lemma idempotent : forall a h h', parsed a -> reached h -> applyToSolverConfiguration a h = (Ok tt, h') ->
  exists h'', applyToSolverConfiguration a h' = (Ok tt, h'') /\ forall b, seen b h'' = seen b h'.
Proof.
  intros a h h' Hp R E. assert (R' : reached h') by (assert (U := usable a h Hp R); rewrite E in U; exact U).
  destruct (apply_is a h Hp R) as [T E0]. destruct (apply_is a h' Hp R') as [_ E1]. rewrite E0 in E.
  destruct (exec_ok _ _ h h' tt (reached_inv h R) T E) as [G F]. rewrite G in *.
  assert (Ef := exec_fine _ (Ok tt) h' (reached_inv h' R') T F).
  destruct (exec (fst (the_plan a)) (Ok tt) h') as [r h''] eqn:E2. cbn in Ef. subst r. exists h''. split; [exact E1|].
  destruct (exec_seen _ h h' (reached_inv h R) T E) as [Ha Hb].
  destruct (exec_seen _ h' h'' (reached_inv h' R') T E2) as [Ha' Hb'].
  intros b. destruct b as [o|g|]; [|apply Hb'; discriminate..].
  destruct (last_of o (fst (the_plan a))) as [v|] eqn:L.
  - rewrite (Ha o v L), (Ha' o v L). reflexivity.
  - apply Hb'. intros o' v Eo. injection Eo as <-. congruence.
Qed.
