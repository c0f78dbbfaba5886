(** Assembly of the streaming matrix. *)
From Verif Require Import Prelude BigSum ModelSemiLagrangian SpecSemiLagrangian ProofSemiLagrangian ProofSemiLagrangian2.
Local Open Scope R_scope.

(** ** Lists *)
Lemma collect_ok {A B} (g : A -> outcome (list B)) l x :
  collect g l = Ok x <-> exists xs, Forall2 (fun a y => g a = Ok y) l xs /\ x = concat xs.
Proof.
  revert x. induction l as [|a l IH]; intros x; cbn [collect].
  - split.
    + intros H. injection H as <-. exists []. split; [constructor|reflexivity].
    + intros (xs & F & ->). inversion F. reflexivity.
  - split.
    + destruct (g a) as [y| |] eqn:E; try discriminate. cbn [obind]. destruct (collect g l) as [z| |]; try discriminate.
      cbn [obind]. intros H. injection H as <-. destruct (proj1 (IH z) eq_refl) as (xs & F & ->). exists (y :: xs).
      split; [constructor; assumption|reflexivity].
    + intros (xs & F & ->). inversion F as [|? y ? xs' Ea F']; subst. rewrite Ea. cbn [obind].
      rewrite (proj2 (IH (concat xs')) (ex_intro _ xs' (conj F' eq_refl))). reflexivity.
Qed.

Lemma Forall2_in_l {A B} (P : A -> B -> Prop) l m a : Forall2 P l m -> In a l -> exists b, In b m /\ P a b.
Proof.
  induction 1 as [|x y l m H F IH]; intros Hin; [destruct Hin|]. destruct Hin as [<-|Hin]; [exists y; split; [left; reflexivity|exact H]|].
  destruct (IH Hin) as (b & Hb & Hp). exists b. split; [right; exact Hb|exact Hp].
Qed.
Lemma Forall2_in_r {A B} (P : A -> B -> Prop) l m b : Forall2 P l m -> In b m -> exists a, In a l /\ P a b.
Proof.
  induction 1 as [|x y l m H F IH]; intros Hin; [destruct Hin|]. destruct Hin as [<-|Hin]; [exists x; split; [left; reflexivity|exact H]|].
  destruct (IH Hin) as (a & Ha & Hp). exists a. split; [right; exact Ha|exact Hp].
Qed.
Lemma Forall2_build {A B} (P : A -> B -> Prop) l : (forall a, In a l -> exists b, P a b) -> exists m, Forall2 P l m.
Proof.
  induction l as [|a l IH]; intros H; [exists []; constructor|].
  destruct (H a (or_introl eq_refl)) as [b Hb]. destruct IH as [m Hm]; [intros; apply H; right; assumption|].
  exists (b :: m). constructor; assumption.
Qed.

Section Any.
  Context {cell : Type} (M : mesh cell) (e : nat -> point) (opp : nat -> nat) (dt : R).

  (** The events of one tracker. *)
  Definition follow (el : tracker cell) : outcome (list (event cell)) :=
    match path_loop M e opp dt 51 [el] with Some r => r | None => Throw end.

  Lemma loop_seq k : forall el rest fuel r1 r, path_loop M e opp dt k [el] = Some r1 -> path_loop M e opp dt fuel rest = Some r ->
    path_loop M e opp dt (k + fuel) (el :: rest) = Some (obind r1 (fun l1 => obind r (fun l2 => Ok (l1 ++ l2)))).
  Proof.
    induction k as [|k IH]; intros el rest fuel r1 r H1 H2; [discriminate|].
    cbn [path_loop Nat.add] in *. destruct (step M e opp dt el) as [ev| |] eqn:S.
    - assert (Pop : forall x, option_map (fun o => obind o (fun l => Ok (x :: l))) (path_loop M e opp dt k []) = Some r1 ->
        option_map (fun o => obind o (fun l => Ok (x :: l))) (path_loop M e opp dt (k + fuel) rest)
        = Some (obind r1 (fun l1 => obind r (fun l2 => Ok (l1 ++ l2))))).
      { intros x Hx. assert (E : path_loop M e opp dt k [] = Some (Ok [])) by (destruct k; reflexivity). rewrite E in Hx.
        injection Hx as <-. rewrite Nat.add_comm, (more_fuel M e opp dt fuel rest r k H2). cbn. destruct r; reflexivity. }
      destruct ev as [el'|el' bi|el'|el'|el' bi]; [exact (IH _ _ _ _ _ H1 H2)| |exact (Pop _ H1)|exact (Pop _ H1)|exact (Pop _ H1)].
      destruct (path_loop M e opp dt k [el']) as [r0|] eqn:E; [|discriminate]. cbn in H1. injection H1 as <-.
      rewrite (IH _ _ _ _ _ E H2). cbn. destruct r0; cbn; try reflexivity. destruct r; reflexivity.
    - injection H1 as <-. reflexivity.
    - injection H1 as <-. reflexivity.
  Qed.

  Lemma follow_some el : lifeTimeCounter el = 0%nat -> path_loop M e opp dt 51 [el] = Some (follow el).
  Proof.
    intros H. unfold follow. destruct (path_loop M e opp dt 51 [el]) eqn:E; [reflexivity|].
    exfalso. revert E. apply loop_terminates. cbn [costs]. unfold cost. rewrite H. cbn. lia.
  Qed.

  Lemma loop_collect_gen (k : nat) (fl : tracker cell -> outcome (list (event cell))) q :
    (forall el, In el q -> path_loop M e opp dt k [el] = Some (fl el)) ->
    path_loop M e opp dt (length q * k) q = Some (collect fl q).
  Proof.
    induction q as [|el q IH]; intros H; [destruct (0 * k)%nat; reflexivity|]. cbn [length Nat.mul].
    assert (P := loop_seq k el q (length q * k) (fl el) (collect fl q)). rewrite P; [reflexivity| |].
    - apply H. left. reflexivity.
    - apply IH. intros x Hx. apply H. right. exact Hx.
  Qed.

  Lemma loop_collect q : (forall el, In el q -> lifeTimeCounter el = 0%nat) ->
    path_loop M e opp dt (51 * length q) q = Some (collect follow q).
  Proof.
    intros H. rewrite (Nat.mul_comm 51 (length q)). apply loop_collect_gen. intros el Hel. apply follow_some. apply H. exact Hel.
  Qed.

  (** ** The trackers of a whole assembly *)
  Context (n : nat) (node : nat -> point) (dofs : cell -> nat -> nat).

  Fixpoint trackers (dirs : list nat) (cells : list cell) (tracked : list nat) : list (tracker cell) :=
    match cells with
    | [] => []
    | c :: rest => let (pts, tracked') := new_points n (dofs c) (fun j => to_real M c (node j)) tracked in
                   start_trackers e dt dirs c pts ++ trackers dirs rest tracked'
    end.

  Definition outputs {B} (g : event cell -> outcome (list B)) (el : tracker cell) (x : list B) : Prop :=
    exists l, follow el = Ok l /\ collect g l = Ok x.

  Lemma trackers_fresh dirs cells : forall tracked el, In el (trackers dirs cells tracked) -> lifeTimeCounter el = 0%nat.
  Proof.
    induction cells as [|c cells IH]; intros tracked el H; cbn [trackers] in H; [destruct H|].
    destruct (new_points _ _ _ _) as [pts tr]. apply in_app_or in H. destruct H as [H|H]; [|exact (IH _ _ H)].
    exact (start_fresh e dt dirs c pts el H).
  Qed.

  Lemma collect_app_ok {A B} (g : A -> outcome (list B)) l m : forall z,
    collect g (l ++ m) = Ok z <-> exists x y, collect g l = Ok x /\ collect g m = Ok y /\ z = x ++ y.
  Proof.
    intros z. rewrite collect_ok. split.
    - intros (xs & F & ->). apply Forall2_app_inv_l in F. destruct F as (x1 & x2 & F1 & F2 & ->).
      exists (concat x1), (concat x2). rewrite concat_app. repeat split; apply collect_ok; [exists x1|exists x2]; auto.
    - intros (x & y & Hx & Hy & ->). apply collect_ok in Hx. apply collect_ok in Hy.
      destruct Hx as (xs & F & ->). destruct Hy as (ys & G & ->). exists (xs ++ ys). split; [apply Forall2_app; assumption|].
      symmetry. apply concat_app.
  Qed.

  Lemma collect_concat {B} (g : event cell -> outcome (list B)) (ls : list (list (event cell))) : forall z,
    collect g (concat ls) = Ok z <-> exists xs, Forall2 (fun l x => collect g l = Ok x) ls xs /\ z = concat xs.
  Proof.
    induction ls as [|l ls IH]; intros z; cbn [concat].
    - split.
      + cbn. intros H. injection H as <-. exists []. split; [constructor|reflexivity].
      + intros (xs & F & ->). inversion F. reflexivity.
    - rewrite collect_app_ok. split.
      + intros (x & y & Hx & Hy & ->). apply IH in Hy. destruct Hy as (xs & F & ->). exists (x :: xs). split; [constructor; assumption|reflexivity].
      + intros (xs & F & ->). inversion F as [|? x ? xs' E F']; subst. exists x, (concat xs'). split; [exact E|]. split; [|reflexivity].
        apply IH. exists xs'. auto.
  Qed.

  Lemma fill_ok {B} dirs (g : event cell -> outcome (list B)) cells : forall tracked z,
    fill M e opp dt n node dofs dirs g cells tracked = Some (Ok z) <->
    exists xs, Forall2 (outputs g) (trackers dirs cells tracked) xs /\ z = concat xs.
  Proof.
    induction cells as [|c cells IH]; intros tracked z; cbn [fill trackers].
    - split.
      + intros H. injection H as <-. exists []. split; [constructor|reflexivity].
      + intros (xs & F & ->). inversion F. reflexivity.
    - destruct (new_points _ _ _ _) as [pts tr] eqn:En. set (q := start_trackers e dt dirs c pts).
      rewrite (loop_collect q) by (intros el Hel; exact (start_fresh e dt dirs c pts el Hel)).
      assert (Term : exists r, fill M e opp dt n node dofs dirs g cells tr = Some r).
      { clear -cells. revert tr. induction cells as [|c' cells IHc]; intros tr; cbn [fill]; [eexists; reflexivity|].
        destruct (new_points _ _ _ _) as [pts' tr']. rewrite (loop_collect _ (fun el Hel => start_fresh e dt dirs c' pts' el Hel)).
        destruct (IHc tr') as [r ->]. eexists. reflexivity. }
      destruct Term as [r Er]. rewrite Er. specialize (IH tr).
      assert (Key : collect follow q = collect follow q) by reflexivity.
      split.
      + intros H. injection H as H. destruct (collect follow q) as [l| |] eqn:El; cbn [obind] in H; try discriminate.
        destruct (collect g l) as [x| |] eqn:Ex; cbn [obind] in H; try discriminate.
        destruct r as [y| |]; cbn [obind] in H; try discriminate. injection H as <-.
        destruct (proj1 (IH y) Er) as (ys & G & ->).
        apply collect_ok in El. destruct El as (ls & F & ->). apply collect_concat in Ex. destruct Ex as (xs & F2 & ->).
        exists (xs ++ ys). rewrite concat_app. split; [|reflexivity]. apply Forall2_app; [|exact G].
        clear -F F2. revert xs F2. induction F as [|el l q' ls H F IHF]; intros xs F2; inversion F2; subst; constructor.
        * exists l. split; assumption.
        * apply IHF. assumption.
      + intros (zs & F & ->). apply Forall2_app_inv_l in F. destruct F as (xs & ys & F1 & F2 & ->).
        destruct r as [y| |]; [| |].
        2,3: exfalso; assert (X := proj2 (IH (concat ys)) (ex_intro _ ys (conj F2 eq_refl))); rewrite Er in X; discriminate.
        assert (Y : y = concat ys).
        { assert (X := proj2 (IH (concat ys)) (ex_intro _ ys (conj F2 eq_refl))). rewrite Er in X. injection X as ->. reflexivity. }
        subst y. f_equal. rewrite concat_app.
        assert (Z : exists ls, Forall2 (fun a y => follow a = Ok y) q ls /\ Forall2 (fun l x => collect g l = Ok x) ls xs).
        { clear -F1. induction F1 as [|el x q' xs' (l & A & B') F1 IHF]; [exists []; split; constructor|].
          destruct IHF as (ls & P1 & P2). exists (l :: ls). split; constructor; assumption. }
        destruct Z as (ls & P1 & P2).
        rewrite (proj2 (collect_ok follow q (concat ls)) (ex_intro _ ls (conj P1 eq_refl))). cbn [obind].
        rewrite (proj2 (collect_concat g ls (concat xs)) (ex_intro _ xs (conj P2 eq_refl))). reflexivity.
  Qed.

  (** Membership. *)
  Lemma tracker_in dirs cells : forall tracked el, In el (trackers dirs cells tracked) <->
    exists c i x a, In a dirs /\ el = mkTracker i a a 0 (fun k => x k + minus_dtealpha e dt a k) x c false /\
      In (c, i, x) ((fix pts cells tracked := match cells with [] => [] | c :: rest =>
        let (p, tr) := new_points n (dofs c) (fun j => to_real M c (node j)) tracked in
        map (fun ix => (c, fst ix, snd ix)) p ++ pts rest tr end) cells tracked).
  Proof.
    induction cells as [|c cells IH]; intros tracked el; cbn [trackers].
    - split; [intros []|]. intros (c & i & x & a & _ & _ & []).
    - destruct (new_points _ _ _ _) as [p tr]. rewrite in_app_iff, IH. unfold start_trackers. rewrite in_flat_map. split.
      + intros [((i & x) & Hix & H)|(c' & i & x & a & H1 & H2 & H3)].
        * apply in_map_iff in H. destruct H as (a & <- & Ha). cbn [fst snd]. exists c, i, x, a. split; [exact Ha|]. split; [reflexivity|].
          apply in_or_app. left. apply in_map_iff. exists (i, x). auto.
        * exists c', i, x, a. split; [exact H1|]. split; [exact H2|]. apply in_or_app. right. exact H3.
      + intros (c' & i & x & a & H1 & H2 & H3). apply in_app_or in H3. destruct H3 as [H3|H3].
        * left. apply in_map_iff in H3. destruct H3 as ((i', x') & E & Hin). cbn in E. injection E as <- <- <-.
          exists (i', x'). split; [exact Hin|]. apply in_map_iff. exists a. split; [symmetry; exact H2|exact H1].
        * right. exists c', i, x, a. auto.
  Qed.

  Lemma trackers_filter dirs p cells tracked el :
    In el (trackers (List.filter p dirs) cells tracked) <-> In el (trackers dirs cells tracked) /\ p (dest_direction el) = true.
  Proof.
    rewrite !tracker_in. split.
    - intros (c & i & x & a & H1 & -> & H3). apply filter_In in H1. destruct H1 as [H1 H2]. cbn [dest_direction]. split; [|exact H2].
      exists c, i, x, a. auto.
    - intros ((c & i & x & a & H1 & -> & H3) & H2). cbn [dest_direction] in H2. exists c, i, x, a. split; [apply filter_In; auto|auto].
  Qed.

  (** Events of a tracker keep its destination. *)
  Lemma follow_dest el l : lifeTimeCounter el = 0%nat -> follow el = Ok l ->
    forall ev, In ev l -> forall el', ev = Found el' \/ ev = Diagonal el' -> dest el' = dest el.
  Proof.
    intros H0 H ev Hin el' Hev. assert (P := follow_some el H0). rewrite H in P. apply loop_dest in P. cbn [map] in P.
    assert (X : In (dest el') (finals l)).
    { clear -Hin Hev. induction l as [|v l IH]; [destruct Hin|]. cbn [finals]. destruct Hin as [->|Hin].
      - destruct Hev as [-> | ->]; left; reflexivity.
      - destruct (final v); [right|]; apply IH; exact Hin. }
    rewrite P in X. destruct X as [X|[]]. symmetry. exact X.
  Qed.

  Lemma row_entries_shape m a b i col v en : In en (row_entries m a b i col v) ->
    exists j w, en = ((a - 1)%nat, (b - 1)%nat, i, j, w).
  Proof.
    induction m as [|m IH]; cbn [row_entries]; [intros []|]. intros H. apply in_app_or in H. destruct H as [H|H]; [apply IH; exact H|].
    destruct (Rlt_dec _ _); [destruct H|]. destruct H as [<-|[]]. eexists _, _. reflexivity.
  Qed.

  (** Everything a tracker writes is in its own row. *)
  Lemma entries_row shape el x : lifeTimeCounter el = 0%nat -> outputs (event_entries M shape dofs n) el x ->
    forall a b i j v, In (a, b, i, j, v) x -> a = (dest_direction el - 1)%nat /\ i = dest_index el.
  Proof.
    intros H0 (l & Hf & Hc) a b i j v Hin. apply collect_ok in Hc. destruct Hc as (xs & F & ->).
    apply in_concat in Hin. destruct Hin as (y & Hy & Hin). destruct (Forall2_in_r _ _ _ _ F Hy) as (ev & Hev & E).
    destruct ev as [el'|el' bi|el'|el'|el' bi]; cbn [event_entries] in E.
    - injection E as <-. destruct Hin.
    - injection E as <-. destruct Hin.
    - injection E as <-. destruct Hin as [H|[]]. assert (D := follow_dest el l H0 Hf _ Hev el' (or_intror eq_refl)). injection H as <- <- <- <- <-.
      unfold dest in D. injection D as -> ->. auto.
    - assert (D := follow_dest el l H0 Hf _ Hev el' (or_introl eq_refl)).
      destruct (shapeValues M shape _ _) as [w| |]; try discriminate. cbn [obind] in E. injection E as <-.
      apply row_entries_shape in Hin. destruct Hin as (j' & w' & Ee). injection Ee as -> -> -> -> ->.
      unfold dest in D. injection D as -> ->. auto.
    - injection E as <-. destruct Hin.
  Qed.

  (** ** The sparsity pattern *)
  Lemma pattern_covers Q shape cells z : assemble M e opp dt n node dofs Q shape cells = Some (Ok z) ->
    forall a b i j v, In (a, b, i, j, v) z -> exists p, pattern M e opp dt n node dofs Q shape cells a = Some (Ok p) /\ In (a, b, i, j) p.
  Proof.
    intros HA a b i j v Hin. unfold assemble in HA. apply fill_ok in HA. destruct HA as (xs & F & ->).
    apply in_concat in Hin. destruct Hin as (x & Hx & Hin). destruct (Forall2_in_r _ _ _ _ F Hx) as (el & Hel & Ho).
    assert (H0 := trackers_fresh _ _ _ _ Hel). destruct (entries_row shape el x H0 Ho _ _ _ _ _ Hin) as [Ea Ei].
    assert (Pos : forall el x, outputs (event_entries M shape dofs n) el x ->
      outputs (event_positions M shape dofs n a) el (map (fun en => let '(_, b, i, j, _) := en in (a, b, i, j)) x)).
    { clear. intros el x (l & Hf & Hc). exists l. split; [exact Hf|]. clear Hf. revert x Hc. induction l as [|ev l IH]; intros x Hc; cbn [collect] in *.
      - injection Hc as <-. reflexivity.
      - destruct (event_entries M shape dofs n ev) as [y| |] eqn:E; try discriminate. cbn [obind] in Hc.
        destruct (collect (event_entries M shape dofs n) l) as [w| |]; try discriminate. cbn [obind] in Hc. injection Hc as <-.
        assert (E' : event_positions M shape dofs n a ev = Ok (map (fun en => let '(_, b, i, j, _) := en in (a, b, i, j)) y)).
        { destruct ev as [el'|el' bi|el'|el'|el' bi]; cbn [event_entries event_positions] in *; try (injection E as <-; reflexivity).
          destruct (shapeValues M shape _ _) as [s| |]; try discriminate. cbn [obind] in *. injection E as <-. reflexivity. }
        rewrite E'. cbn [obind]. rewrite (IH w eq_refl). cbn [obind]. rewrite map_app. reflexivity. }
    assert (Hex : exists ps, Forall2 (outputs (event_positions M shape dofs n a))
      (trackers (List.filter (fun k => Nat.eqb (k - 1) a) (List.seq 1 (Q - 1))) cells []) ps).
    { apply Forall2_build. intros el' Hel'. apply trackers_filter in Hel'. destruct Hel' as [Hel' _].
      destruct (Forall2_in_l _ _ _ _ F Hel') as (y & _ & Hy). eexists. apply Pos. exact Hy. }
    destruct Hex as (ps & G). exists (concat ps). split; [apply fill_ok; exists ps; auto|].
    assert (Hel2 : In el (trackers (List.filter (fun k => Nat.eqb (k - 1) a) (List.seq 1 (Q - 1))) cells [])).
    { apply trackers_filter. split; [exact Hel|]. apply Nat.eqb_eq. symmetry. exact Ea. }
    destruct (Forall2_in_l _ _ _ _ G Hel2) as (p & Hp & Hop). apply in_concat. exists p. split; [exact Hp|].
    assert (Hop2 := Pos el x Ho). destruct Hop as (l1 & A1 & B1). destruct Hop2 as (l2 & A2 & B2).
    rewrite A1 in A2. injection A2 as <-. rewrite B1 in B2. injection B2 as ->.
    apply in_map_iff. exists (a, b, i, j, v). split; [reflexivity|exact Hin].
  Qed.
End Any.
