(** The assembled streaming matrix on periodic Cartesian meshes. *)
From Verif Require Import Prelude BigSum ModelSemiLagrangian SpecSemiLagrangian ProofSemiLagrangian ProofSemiLagrangian2
  ProofSemiLagrangian3.
Local Open Scope R_scope.

Lemma NoDup_app_intro {A} (l m : list A) : NoDup l -> NoDup m -> (forall x, In x l -> ~ In x m) -> NoDup (l ++ m).
Proof.
  induction l as [|a l IH]; intros Hl Hm H; [exact Hm|]. inversion Hl; subst. cbn [app]. constructor.
  - intros Hin. apply in_app_or in Hin. destruct Hin as [Hin|Hin]; [contradiction|exact (H a (or_introl eq_refl) Hin)].
  - apply IH; [assumption|exact Hm|intros x Hx; apply H; right; exact Hx].
Qed.

(** ** Destinations are handled once *)
Section Dest.
  Context {cell : Type} (M : mesh cell) (e : nat -> point) (dt : R) (n : nat) (node : nat -> point) (dofs : cell -> nat -> nat).

  Lemma new_points_spec m dof pt : forall tracked p tr, new_points m dof pt tracked = (p, tr) ->
    (forall i, In i tr <-> In i tracked \/ In i (map fst p)) /\
    (forall j, (j < m)%nat -> In (dof j) tr) /\
    (forall ix, In ix p -> exists j, (j < m)%nat /\ ix = (dof j, pt j)) /\
    (forall i, In i (map fst p) -> ~ In i tracked) /\ NoDup (map fst p).
  Proof.
    induction m as [|m IH]; intros tracked p tr H; cbn [new_points] in H.
    - injection H as <- <-. cbn. repeat split; try tauto; try lia. constructor.
    - destruct (new_points m dof pt tracked) as [p0 tr0] eqn:E. destruct (IH tracked p0 tr0 E) as (H1 & H2 & H3 & H4 & H5).
      destruct (existsb (Nat.eqb (dof m)) tr0) eqn:X.
      + injection H as <- <-. apply existsb_exists in X. destruct X as (i & Hi & Ei). apply Nat.eqb_eq in Ei. subst i.
        split; [exact H1|]. split; [|split; [|split; [exact H4|exact H5]]].
        * intros j Hj. destruct (Nat.eq_dec j m) as [->|]; [exact Hi|apply H2; lia].
        * intros ix Hix. destruct (H3 ix Hix) as (j & Hj & Ej). exists j. split; [lia|exact Ej].
      + assert (Hn : ~ In (dof m) tr0).
        { intros Hc. assert (Y : existsb (Nat.eqb (dof m)) tr0 = true); [|rewrite Y in X; discriminate].
          apply existsb_exists. exists (dof m). split; [exact Hc|apply Nat.eqb_refl]. }
        injection H as <- <-. rewrite map_app. cbn [map fst]. split; [|split; [|split; [|split]]].
        * intros i. cbn [In]. rewrite in_app_iff. cbn [In]. rewrite (H1 i). tauto.
        * intros j Hj. destruct (Nat.eq_dec j m) as [->|]; [left; reflexivity|right; apply H2; lia].
        * intros ix Hix. apply in_app_or in Hix. destruct Hix as [Hix|[<-|[]]].
          -- destruct (H3 ix Hix) as (j & Hj & Ej). exists j. split; [lia|exact Ej].
          -- exists m. split; [lia|reflexivity].
        * intros i Hi. apply in_app_or in Hi. destruct Hi as [Hi|[<-|[]]]; [apply H4; exact Hi|].
          intros Hc. apply Hn. apply H1. left. exact Hc.
        * apply NoDup_app_intro; [exact H5|constructor; [intros []|constructor]|].
          intros i Hi [<-|[]]. apply Hn. apply H1. right. exact Hi.
  Qed.

  Lemma trackers_origin dirs cells : forall tracked el, In el (trackers M e dt n node dofs dirs cells tracked) ->
    exists c j a, In c cells /\ (j < n)%nat /\ In a dirs /\ ~ In (dofs c j) tracked /\
      el = mkTracker (dofs c j) a a 0 (fun k => to_real M c (node j) k + minus_dtealpha e dt a k) (to_real M c (node j)) c false.
  Proof.
    induction cells as [|c cells IH]; intros tracked el H; cbn [trackers] in H; [destruct H|].
    destruct (new_points _ _ _ _) as [p tr] eqn:E. destruct (new_points_spec _ _ _ _ _ _ E) as (H1 & H2 & H3 & H4 & H5).
    apply in_app_or in H. destruct H as [H|H].
    - unfold start_trackers in H. apply in_flat_map in H. destruct H as (ix & Hix & H). apply in_map_iff in H. destruct H as (a & <- & Ha).
      assert (Hnt := H4 (fst ix) (in_map fst p ix Hix)).
      destruct (H3 ix Hix) as (j & Hj & ->). exists c, j, a. cbn [fst snd] in *. split; [left; reflexivity|]. auto.
    - destruct (IH _ _ H) as (c' & j & a & Hc & Hj & Ha & Hnt & ->). exists c', j, a. split; [right; exact Hc|].
      split; [exact Hj|]. split; [exact Ha|]. split; [|reflexivity]. intros X. apply Hnt. apply H1. left. exact X.
  Qed.

  Lemma trackers_complete dirs cells : forall tracked c j a, In c cells -> (j < n)%nat -> In a dirs -> ~ In (dofs c j) tracked ->
    exists el, In el (trackers M e dt n node dofs dirs cells tracked) /\ dest el = (dofs c j, a).
  Proof.
    induction cells as [|c0 cells IH]; intros tracked c j a Hc Hj Ha Hnt; [destruct Hc|]. cbn [trackers].
    destruct (new_points _ _ _ _) as [p tr] eqn:E. destruct (new_points_spec _ _ _ _ _ _ E) as (H1 & H2 & H3 & H4 & H5).
    destruct (in_dec Nat.eq_dec (dofs c j) (map fst p)) as [Hin|Hnin].
    - apply in_map_iff in Hin. destruct Hin as (ix & Eix & Hix).
      eexists. split; [apply in_or_app; left; unfold start_trackers; apply in_flat_map; exists ix; split; [exact Hix|];
        apply in_map_iff; exists a; split; [reflexivity|exact Ha]|]. rewrite <- Eix. reflexivity.
    - destruct Hc as [<-|Hc].
      + exfalso. assert (X := H2 j Hj). apply H1 in X. tauto.
      + destruct (IH tr c j a Hc Hj Ha) as (el & Hel & Ed).
        * intros X. apply H1 in X. tauto.
        * exists el. split; [apply in_or_app; right; exact Hel|exact Ed].
  Qed.

  Lemma trackers_nodup dirs cells : NoDup dirs -> forall tracked, NoDup (map dest (trackers M e dt n node dofs dirs cells tracked)).
  Proof.
    intros Hd. induction cells as [|c cells IH]; intros tracked; cbn [trackers]; [constructor|].
    destruct (new_points _ _ _ _) as [p tr] eqn:E. destruct (new_points_spec _ _ _ _ _ _ E) as (H1 & H2 & H3 & H4 & H5).
    rewrite map_app. apply NoDup_app_intro.
    - clear -H5 Hd. unfold start_trackers. induction p as [|ix p IH]; [constructor|]. cbn [flat_map map]. rewrite map_app.
      inversion H5 as [|? ? Hn Hr]; subst. apply NoDup_app_intro.
      + rewrite map_map. unfold dest. cbn [dest_index dest_direction]. apply FinFun.Injective_map_NoDup; [|exact Hd].
        intros a b Hab. congruence.
      + apply IH. exact Hr.
      + intros d Hin Hin2. apply in_map_iff in Hin. destruct Hin as (el & <- & Hin). apply in_map_iff in Hin. destruct Hin as (a & <- & _).
        apply in_map_iff in Hin2. destruct Hin2 as (el2 & Ed & Hin2). apply in_flat_map in Hin2. destruct Hin2 as (ix2 & Hix2 & Hin2).
        apply in_map_iff in Hin2. destruct Hin2 as (b & <- & _). unfold dest in Ed. cbn [dest_index dest_direction] in Ed.
        injection Ed as Ed _. apply Hn. exact (eq_ind _ (fun v => In v (map fst p)) (in_map fst p ix2 Hix2) _ Ed).
    - apply IH.
    - intros d Hin Hin2. apply in_map_iff in Hin. destruct Hin as (el & <- & Hin). unfold start_trackers in Hin. apply in_flat_map in Hin.
      destruct Hin as (ix & Hix & Hin). apply in_map_iff in Hin. destruct Hin as (a & <- & _).
      apply in_map_iff in Hin2. destruct Hin2 as (el2 & Ed & Hin2). apply trackers_origin in Hin2.
      destruct Hin2 as (c' & j & b & _ & _ & _ & Hnt & ->). unfold dest in Ed. cbn [dest_index dest_direction] in Ed.
      injection Ed as Ed _. apply Hnt. apply H1. right. exact (eq_ind _ (fun v => In v (map fst p)) (in_map fst p ix Hix) _ (eq_sym Ed)).
  Qed.
End Dest.

(** ** Rows *)
Lemma apply_row_app x y f a i : apply_row (x ++ y) f a i = apply_row x f a i + apply_row y f a i.
Proof. induction x as [|en x IH]; cbn [apply_row app fold_right]; [unfold apply_row; cbn; ring|]. unfold apply_row in *. cbn [fold_right app]. rewrite IH. ring. Qed.

Lemma apply_row_zero x f a i : (forall a' b i' j v, In (a', b, i', j, v) x -> a' <> a \/ i' <> i) -> apply_row x f a i = 0.
Proof.
  induction x as [|en x IH]; intros H; [reflexivity|]. unfold apply_row. cbn [fold_right]. fold (apply_row x f a i).
  rewrite IH by (intros; eapply H; right; eassumption). destruct en as [[[[a' b] i'] j] v]. unfold entry_term.
  destruct (H a' b i' j v (or_introl eq_refl)) as [Hn|Hn].
  - destruct (Nat.eqb_spec a a') as [->|]; [contradiction|]. cbn. ring.
  - destruct (Nat.eqb_spec i i') as [->|]; [contradiction|]. rewrite Bool.andb_false_r. ring.
Qed.

Lemma apply_row_entries m a b i col v f :
  apply_row (row_entries m a b i col v) f (a - 1) i = sumf m (fun k => if Rlt_dec (Rabs (v k)) tol then 0 else v k * f (b - 1)%nat (col k)).
Proof.
  induction m as [|m IH]; [reflexivity|]. cbn [row_entries sumf]. rewrite apply_row_app, IH. f_equal.
  destruct (Rlt_dec (Rabs (v m)) tol); unfold apply_row; cbn [fold_right]; [reflexivity|].
  unfold entry_term. rewrite !Nat.eqb_refl. cbn. ring.
Qed.

Lemma dropped_small m (v g : nat -> R) B : (forall k, (k < m)%nat -> Rabs (g k) <= B) ->
  Rabs (sumf m (fun k => if Rlt_dec (Rabs (v k)) tol then 0 else v k * g k) - sumf m (fun k => v k * g k)) <= INR m * (tol * B).
Proof.
  intros H. rewrite <- sumf_minus, <- sumf_const. eapply Rle_trans; [apply sumf_abs|]. apply sumf_le. intros k Hk.
  assert (Hg := H k Hk). assert (Pg := Rabs_pos (g k)). assert (T : 0 < tol) by (unfold tol; lra).
  destruct (Rlt_dec (Rabs (v k)) tol) as [L|L].
  - replace (0 - v k * g k) with (- (v k * g k)) by ring. rewrite Rabs_Ropp, Rabs_mult. assert (Pv := Rabs_pos (v k)).
    apply Rmult_le_compat; lra.
  - replace (v k * g k - v k * g k) with 0 by ring. rewrite Rabs_R0. apply Rmult_le_pos; lra.
Qed.

(** One tracker's contribution is the whole row. *)
Lemma row_of_tracker {cell} (xs : list (list entry)) (q : list (tracker cell)) f el x :
  Forall2 (fun el x => forall a b i j v, In (a, b, i, j, v) x -> a = (dest_direction el - 1)%nat /\ i = dest_index el) q xs ->
  (forall el, In el q -> (1 <= dest_direction el)%nat) -> NoDup (map dest q) ->
  In (el, x) (combine q xs) -> apply_row (concat xs) f (dest_direction el - 1) (dest_index el) = apply_row x f (dest_direction el - 1) (dest_index el).
Proof.
  intros F. induction F as [|e0 x0 q xs H F IH]; intros Hd Hn Hin; [destruct Hin|]. cbn [combine In concat map] in *.
  inversion Hn as [|? ? Hn1 Hn2]; subst. rewrite apply_row_app. destruct Hin as [Hin|Hin].
  - injection Hin as -> ->. rewrite (apply_row_zero (concat xs)); [ring|]. intros a' b i' j v Hc.
    apply in_concat in Hc. destruct Hc as (y & Hy & Hc). destruct (Forall2_in_r _ _ _ _ F Hy) as (e1 & He1 & P).
    destruct (P _ _ _ _ _ Hc) as [-> ->]. destruct (Nat.eq_dec (dest_index e1) (dest_index el)) as [Ei|Ei]; [left|right; exact Ei].
    intros Ea. apply Hn1. apply in_map_iff. exists e1. split; [|exact He1]. unfold dest. rewrite Ei. f_equal.
    assert (A := Hd e1 (or_intror He1)). assert (B := Hd el (or_introl eq_refl)). lia.
  - rewrite (IH (fun e1 He1 => Hd e1 (or_intror He1)) Hn2 Hin). rewrite (apply_row_zero x0); [ring|]. intros a' b i' j v Hc.
    destruct (H _ _ _ _ _ Hc) as [-> ->]. apply in_combine_l in Hin.
    destruct (Nat.eq_dec (dest_index e0) (dest_index el)) as [Ei|Ei]; [left|right; exact Ei].
    intros Ea. apply Hn1. apply in_map_iff. exists el. split; [|exact Hin]. unfold dest. rewrite Ei. f_equal.
    assert (A := Hd el (or_intror Hin)). assert (B := Hd e0 (or_introl eq_refl)). lia.
Qed.

(** ** Periodic Cartesian meshes *)
Section TorusAssembly.
  Context (D : nat) (N : nat -> Z) (h : nat -> R) (plane : index -> nat -> point * point)
          (e : nat -> point) (opp : nat -> nat) (dt : R)
          (n : nat) (node : nat -> point) (dofs : index -> nat -> nat) (Q : nat) (shape : nat -> point -> R) (cells : list index).
  Hypothesis HD : (0 < D)%nat.
  Hypothesis HN : forall i, (i < D)%nat -> (2 <= N i)%Z.
  Hypothesis Hh : forall i, (i < D)%nat -> 0 < h i.
  Hypothesis Hcells : forall c, In c cells -> in_grid D N c.
  Hypothesis Hnode : forall j, (j < n)%nat -> inside D (node j).
  Hypothesis Hshort : short_paths D h e dt Q.
  Let M := torus D N h plane.
  Let dirs := List.seq 1 (Q - 1).

  Lemma distance_bound m t z g : (forall i, (i < m)%nat -> Rabs (IZR (t i) - IZR (z i)) <= g i + 1) ->
    INR (distance m t z) <= sumf m g + INR m.
  Proof.
    induction m as [|m IH]; intros H; [cbn; lra|]. cbn [distance sumf]. rewrite plus_INR, S_INR.
    assert (A := H m ltac:(lia)). assert (B := IH (fun i Hi => H i ltac:(lia))).
    assert (C : INR (Z.abs_nat (t m - z m)) = Rabs (IZR (t m) - IZR (z m))).
    { rewrite INR_IZR_INZ, Zabs2Nat.id_abs, <- minus_IZR. apply abs_IZR. }
    lra.
  Qed.

  Lemma tracker_good el : In el (trackers M e dt n node dofs dirs cells []) ->
    exists t, good D N h el t /\ (distance D t (currentCell el) < 50)%nat.
  Proof.
    intros Hin. apply trackers_origin in Hin. destruct Hin as (c & j & a & Hc & Hj & Ha & _ & ->).
    apply in_seq in Ha. assert (Ha' : (1 <= a < Q)%nat) by lia.
    set (y := fun k : nat => to_real M c (node j) k + minus_dtealpha e dt a k).
    exists (fun i => Int_part (y i / h i)). unfold good. cbn [currentCell currentPoint departurePoint hit_do_nothing].
    assert (U : forall i, (i < D)%nat -> to_real M c (node j) i / h i - IZR (c i) = node j i).
    { intros i Hi. unfold M, torus. cbn [to_real]. assert (P := Hh i Hi). field. lra. }
    split.
    - split; [apply Hcells; exact Hc|]. split; [|split; [|reflexivity]].
      + intros i Hi. rewrite U by exact Hi. assert (X := Hnode j Hj i Hi). lra.
      + intros i Hi. destruct (base_Int_part (y i / h i)) as [A B]. lra.
    - apply INR_lt. eapply Rle_lt_trans; [apply (distance_bound D _ c (fun i => Rabs (dt * e a i) / h i))|].
      + intros i Hi. assert (P := Hh i Hi). destruct (base_Int_part (y i / h i)) as [A B].
        assert (Y : y i / h i = node j i + IZR (c i) - dt * e a i / h i).
        { unfold y, M, torus. cbn [to_real]. unfold minus_dtealpha. field. lra. }
        assert (X := Hnode j Hj i Hi).
        replace (Rabs (dt * e a i) / h i) with (Rabs (dt * e a i / h i)).
        2:{ unfold Rdiv. rewrite Rabs_mult, (Rabs_pos_eq (/ h i)); [reflexivity|]. left. apply Rinv_0_lt_compat. exact P. }
        set (w := dt * e a i / h i) in *. assert (W1 := Rle_abs w). assert (W2 := Rle_abs (- w)). rewrite Rabs_Ropp in W2.
        apply Rabs_le. lra.
      + assert (X := Hshort a Ha'). replace (INR 50) with 50 by (cbn; ring). exact X.
  Qed.

  (** What one tracker writes. *)
  Lemma tracker_row el : In el (trackers M e dt n node dofs dirs cells []) ->
    exists c2 u, in_grid D N c2 /\ inside D u /\ nearly_congruent D N h (to_real M c2 u) (departurePoint el) /\
      outputs M e opp dt (event_entries M shape dofs n) el
        (row_entries n (dest_direction el) (dest_direction el) (dest_index el) (dofs c2) (fun j => shape j u)).
  Proof.
    intros Hin. destruct (tracker_good el Hin) as (t & Hg & Hd).
    assert (H0 := trackers_fresh _ _ _ _ _ _ _ _ _ _ Hin).
    destruct (torus_all D N h plane e opp dt HD HN Hh [el]) as (l & Hl & F).
    { intros x [<-|[]]. split; [exact H0|]. exists t. auto. }
    inversion F as [|? ev ? l' Ha F']; subst. inversion F'; subst. clear F F'.
    destruct Ha as (el' & -> & (S1 & S2 & S3) & G & Hn & Hc).
    change (51 * length [el])%nat with 51%nat in Hl.
    assert (Hf : follow M e opp dt el = Ok [Found el']) by (unfold follow, M; rewrite Hl; reflexivity).
    set (u := fun i => departurePoint el' i / h i - IZR (currentCell el' i)).
    assert (Hin' : inside D (snap_point u)) by (intros i Hi; apply snap_inside; apply (Hn i Hi)).
    exists (currentCell el'), (snap_point u). split; [exact G|]. split; [exact Hin'|]. split.
    - intros i Hi. destruct (Hc i Hi) as [k Ek]. exists k. rewrite <- Ek. unfold M, torus. cbn [to_real].
      assert (P := Hh i Hi).
      replace ((snap_point u i + IZR (currentCell el' i)) * h i - departurePoint el' i) with ((snap (u i) - u i) * h i).
      2:{ unfold snap_point, u. field. lra. }
      rewrite Rabs_mult, (Rabs_pos_eq (h i)) by lra. apply Rmult_le_compat_r; [lra|]. fold tol. left. apply snap_close.
    - exists [Found el']. split; [exact Hf|]. cbn [collect event_entries]. unfold shapeValues, M, torus. cbn [to_unit dim].
      fold u. rewrite (proj2 (all_inside_iff D (snap_point u)) Hin'). cbn [obind]. rewrite app_nil_r.
      assert (Hcur : currentDirection el = dest_direction el).
      { apply trackers_origin in Hin. destruct Hin as (c & j & a & _ & _ & _ & _ & ->). reflexivity. }
      rewrite S1, S2, S3, Hcur. reflexivity.
  Qed.

  Lemma torus_assembly : consistent_dofs D N h M n node dofs cells ->
    exists z, assemble M e opp dt n node dofs Q shape cells = Some (Ok z) /\
    forall c j a, In c cells -> (j < n)%nat -> (1 <= a < Q)%nat ->
    exists c2 u, in_grid D N c2 /\ inside D u /\
      nearly_congruent D N h (to_real M c2 u) (fun i => to_real M c (node j) i - dt * e a i) /\
      forall f, apply_row z f (a - 1) (dofs c j)
        = sumf n (fun k => if Rlt_dec (Rabs (shape k u)) tol then 0 else shape k u * f (a - 1)%nat (dofs c2 k)).
  Proof.
    intros Hcons.
    destruct (Forall2_build (fun el x => exists c2 u, in_grid D N c2 /\ inside D u /\
      nearly_congruent D N h (to_real M c2 u) (departurePoint el) /\
      outputs M e opp dt (event_entries M shape dofs n) el x /\
      x = row_entries n (dest_direction el) (dest_direction el) (dest_index el) (dofs c2) (fun j => shape j u))
      (trackers M e dt n node dofs dirs cells [])) as (xs & F).
    { intros el Hel. destruct (tracker_row el Hel) as (c2 & u & A & B & C & O). eexists. exists c2, u.
      split; [exact A|]. split; [exact B|]. split; [exact C|]. split; [exact O|reflexivity]. }
    exists (concat xs). split.
    { unfold assemble. apply fill_ok. exists xs. split; [|reflexivity]. fold dirs. clear -F.
      induction F as [|e0 x0 q xs (c2 & u & _ & _ & _ & O & _) F IH]; constructor; assumption. }
    intros c j a Hc Hj Ha.
    destruct (trackers_complete M e dt n node dofs dirs cells [] c j a Hc Hj ltac:(apply in_seq; lia) ltac:(intros [])) as (el & Hel & Ed).
    assert (Hcomb : exists x, In (el, x) (combine (trackers M e dt n node dofs dirs cells []) xs) /\ exists c2 u, in_grid D N c2 /\ inside D u /\
      nearly_congruent D N h (to_real M c2 u) (departurePoint el) /\
      x = row_entries n (dest_direction el) (dest_direction el) (dest_index el) (dofs c2) (fun j => shape j u)).
    { clear -F Hel. induction F as [|e0 x0 q xs (c2 & u & A & B & C & O & X) F IH]; [destruct Hel|]. destruct Hel as [<-|Hel].
      - exists x0. split; [left; reflexivity|]. exists c2, u. auto.
      - destruct (IH Hel) as (x & Hx & P). exists x. split; [right; exact Hx|exact P]. }
    destruct Hcomb as (x & Hx & c2 & u & G & Hu & Hnc & Ex).
    unfold dest in Ed. injection Ed as Ei Ea.
    exists c2, u. split; [exact G|]. split; [exact Hu|]. split.
    - destruct (trackers_origin M e dt n node dofs dirs cells [] el Hel) as (c' & j' & a' & Hc' & Hj' & _ & _ & El).
      rewrite El in Ei, Ea, Hnc. cbn [dest_index dest_direction departurePoint] in Ei, Ea, Hnc. subst a'.
      intros i Hi. destruct (Hnc i Hi) as [k Hk]. destruct (Hcons c' c j' j Hc' Hc Hj' Hj Ei i Hi) as [k2 Hk2].
      exists (k + k2)%Z. rewrite plus_IZR. unfold minus_dtealpha in Hk. rewrite Hk2 in Hk.
      replace (to_real M c (node j) i - dt * e a i + (IZR k + IZR k2) * (IZR (N i) * h i))
        with (to_real M c (node j) i + IZR k2 * (IZR (N i) * h i) + e a i * - dt + IZR k * (IZR (N i) * h i)) by ring.
      exact Hk.
    - intros f. rewrite <- Ea, <- Ei. rewrite (row_of_tracker xs (trackers M e dt n node dofs dirs cells []) f el x); [rewrite Ex; apply apply_row_entries| | | |exact Hx].
      + assert (Fr : forall el, In el (trackers M e dt n node dofs dirs cells []) -> lifeTimeCounter el = 0%nat)
          by (intros; eapply trackers_fresh; eassumption).
        clear -F Fr. induction F as [|e0 x0 q xs (c2 & u & A & B & C & O & X) F IH]; constructor.
        * apply (entries_row M e opp dt n dofs shape e0 x0 (Fr e0 (or_introl eq_refl)) O).
        * apply IH. intros el Hel. apply Fr. right. exact Hel.
      + intros e1 He1. apply trackers_origin in He1. destruct He1 as (c' & j' & a' & _ & _ & Ha' & _ & ->). apply in_seq in Ha'.
        cbn [dest_direction]. lia.
      + apply trackers_nodup. apply seq_NoDup.
  Qed.

  Lemma torus_stream : consistent_dofs D N h M n node dofs cells ->
    exists z, assemble M e opp dt n node dofs Q shape cells = Some (Ok z) /\
    forall a F f B eps, (1 <= a < Q)%nat ->
      (forall c k, in_grid D N c -> (k < n)%nat -> f (a - 1)%nat (dofs c k) = F (to_real M c (node k)) /\ Rabs (F (to_real M c (node k))) <= B) ->
      (forall c, in_grid D N c -> reproduces M n node shape F c) ->
      (forall x y, nearly_congruent D N h x y -> Rabs (F x - F y) <= eps) ->
      forall c j, In c cells -> (j < n)%nat ->
      Rabs (apply_row z f (a - 1) (dofs c j) - F (fun i => to_real M c (node j) i - dt * e a i)) <= INR n * (1 / 10 ^ 10 * B) + eps.
  Proof.
    intros Hcons. destruct (torus_assembly Hcons) as (z & Hz & Hrow). exists z. split; [exact Hz|].
    intros a F f B eps Ha Hf Hrep Hper c j Hc Hj. destruct (Hrow c j a Hc Hj Ha) as (c2 & u & G & Hu & Hnc & ->).
    assert (E1 := dropped_small n (fun k => shape k u) (fun k => f (a - 1)%nat (dofs c2 k)) B).
    assert (E2 : sumf n (fun k => shape k u * f (a - 1)%nat (dofs c2 k)) = F (to_real M c2 u)).
    { rewrite <- (Hrep c2 G u Hu). apply sumf_ext. intros k Hk. rewrite (proj1 (Hf c2 k G Hk)). reflexivity. }
    assert (E3 := Hper _ _ Hnc).
    assert (E1' : forall k, (k < n)%nat -> Rabs (f (a - 1)%nat (dofs c2 k)) <= B).
    { intros k Hk. destruct (Hf c2 k G Hk) as [-> Hb]. exact Hb. }
    specialize (E1 E1'). cbn beta in E1. rewrite E2 in E1. fold tol.
    match goal with |- Rabs (?s - ?t) <= _ => replace (s - t) with ((s - F (to_real M c2 u)) + (F (to_real M c2 u) - t)) by ring end.
    eapply Rle_trans; [apply Rabs_triang|]. lra.
  Qed.
End TorusAssembly.
