(** The effect of all hits on the populations. *)
From Coq Require Import Permutation.
From Verif Require Import Prelude BigSum ModelSemiLagrangian ModelWalls SpecWalls ProofWalls.
Local Open Scope R_scope.

Lemma sum_over_app {A} (g : A -> R) l m : sum_over g (l ++ m) = sum_over g l + sum_over g m.
Proof. unfold sum_over. induction l as [|a l IH]; cbn; [ring|]. rewrite IH. ring. Qed.
Lemma sum_over_perm {A} (g : A -> R) l m : Permutation l m -> sum_over g l = sum_over g m.
Proof. unfold sum_over. induction 1; cbn; try lra. Qed.
Lemma sum_over_flat {A B} (g : B -> R) (k : A -> list B) l : sum_over g (flat_map k l) = sum_over (fun a => sum_over g (k a)) l.
Proof. induction l as [|a l IH]; [reflexivity|]. cbn [flat_map]. rewrite sum_over_app, IH. reflexivity. Qed.
Lemma sum_over_ext {A} (g g' : A -> R) l : (forall a, In a l -> g a = g' a) -> sum_over g l = sum_over g' l.
Proof.
  induction l as [|a l IH]; intros H; [reflexivity|]. cbn. change (g a + sum_over g l = g' a + sum_over g' l).
  rewrite IH by (intros; apply H; right; assumption). rewrite (H a) by (left; reflexivity). reflexivity.
Qed.
Lemma sum_over_filter {A} (p : A -> bool) (g : A -> R) l : sum_over (fun a => if p a then g a else 0) l = sum_over g (List.filter p l).
Proof.
  induction l as [|a l IH]; [reflexivity|]. cbn [List.filter]. change (sum_over ?k (a :: l)) with (k a + sum_over k l).
  rewrite IH. destruct (p a); [reflexivity|ring].
Qed.

Section Values.
  Context {cell : Type} (M : mesh cell) (e : nat -> point) (w : nat -> R) (cs2 : R) (opp : nat -> nat) (dt : R)
    (same : cell -> cell -> bool) (rebalance : hit_tree (cell := cell) -> hit_tree (cell := cell)) (bc : nat -> condition).
  Context (vel : nat -> R -> point -> point).

  Definition contribution (t : R) (a i : nat) (x : point) (h : hit cell) : R :=
    if addressed a i h then exchange (dim M) e w cs2 a (vel (hit_boundary h) (t - hit_dt h) x) else 0.

  Lemma apply_hits x t a i hs : forall f, (forall h, In h hs -> bc (hit_boundary h) = VelocityBB (vel (hit_boundary h))) ->
    fold_left (apply_hit M e w cs2 opp bc x t) hs f a i = f a i + sum_over (contribution t a i x) hs.
  Proof.
    induction hs as [|h hs IH]; intros f H; [cbn; ring|]. cbn [fold_left].
    rewrite IH by (intros; apply H; right; assumption). change (sum_over ?k (h :: hs)) with (k h + sum_over k hs).
    assert (E : apply_hit M e w cs2 opp bc x t f h a i = f a i + contribution t a i x h); [|rewrite E; ring].
    unfold apply_hit. rewrite (H h (or_introl eq_refl)). unfold calculateBoundaryValues, set_pop, contribution, addressed, exchange.
    rewrite (Nat.eqb_sym a), (Nat.eqb_sym i).
    destruct (Nat.eqb_spec (hit_direction h) a) as [->|]; cbn [andb]; [|ring].
    destruct (Nat.eqb_spec (hit_index h) i) as [->|]; [|ring]. unfold Rdiv. ring.
  Qed.

  Lemma quadrature_ok c l : forall q, quadrature M c l = Ok q ->
    Forall2 (fun xh uh => getPoint M c (fst xh) = Ok (fst uh) /\ snd uh = snd xh) l q.
  Proof.
    induction l as [|[x hs] l IH]; intros q H; cbn [quadrature] in H; [injection H as <-; constructor|].
    destruct (getPoint M c x) as [u| |] eqn:E; try discriminate. cbn [obind] in H.
    destruct (quadrature M c l) as [q'| |] eqn:E'; try discriminate. cbn [obind] in H. injection H as <-.
    constructor; [split; [exact E|reflexivity]|apply IH; reflexivity].
  Qed.

  (** One cell, if the velocities do not depend on where they are evaluated, given by [X]. *)
  Lemma cell_value t c tr f f' (X : hit cell -> R) a i : operate_cell M e w cs2 opp bc t c tr f = Ok f' ->
    (forall h, In h (flat_map snd (elements tr)) -> bc (hit_boundary h) = VelocityBB (vel (hit_boundary h))) ->
    (forall k l h u, In (k, l) (elements tr) -> In h l -> getPoint M c k = Ok u -> contribution t a i u h = X h) ->
    f' a i = f a i + sum_over X (flat_map snd (elements tr)).
  Proof.
    unfold operate_cell. destruct (quadrature M c (elements tr)) as [q| |] eqn:Q; try discriminate. cbn [obind]. intros H Hbc HX.
    injection H as <-. apply quadrature_ok in Q. revert f. induction Q as [|[x hs] [u hs'] l q [G E] Q IH]; intros f; [cbn; ring|].
    cbn [fst snd] in *. subst hs'. cbn [fold_left fst snd flat_map]. rewrite IH.
    - rewrite apply_hits by (intros h Hh; apply Hbc; cbn [flat_map snd]; apply in_or_app; left; exact Hh).
      rewrite sum_over_app. rewrite (sum_over_ext (contribution t a i u) X hs); [ring|].
      intros h Hh. apply (HX x hs h u); [left; reflexivity|exact Hh|exact G].
    - intros h Hh. apply Hbc. cbn [flat_map]. apply in_or_app. right. exact Hh.
    - intros k l' h u' Hin. apply HX. right. exact Hin.
  Qed.

  Lemma operate_value t (m : cell -> hit_tree (cell := cell)) (X : hit cell -> R) a i cells : forall f f',
    operate M e w cs2 opp bc t cells m f = Ok f' ->
    (forall c h, In c cells -> In h (flat_map snd (elements (m c))) -> bc (hit_boundary h) = VelocityBB (vel (hit_boundary h))) ->
    (forall c k l h u, In c cells -> In (k, l) (elements (m c)) -> In h l -> getPoint M c k = Ok u -> contribution t a i u h = X h) ->
    f' a i = f a i + sum_over X (flat_map (fun c => flat_map snd (elements (m c))) cells).
  Proof.
    induction cells as [|c cells IH]; intros f f' H Hbc HX; cbn [operate] in H; [injection H as <-; cbn; ring|].
    destruct (operate_cell M e w cs2 opp bc t c (m c) f) as [f1| |] eqn:E; try discriminate. cbn [obind] in H.
    rewrite (IH f1 f' H); [|intros c' h Hc; apply Hbc; right; exact Hc|intros c' k l h u Hc; apply HX; right; exact Hc].
    rewrite (cell_value t c (m c) f f1 X a i E); [|intros h; apply Hbc; left; reflexivity|intros k l h u; apply HX; left; reflexivity].
    cbn [flat_map]. rewrite sum_over_app. ring.
  Qed.

  Hypothesis Hreb : keeps_order rebalance.

  (** Hits of a list, all addressed to bounce-back walls whose velocity is the same everywhere. *)
  Lemma uniform_walls t cells hs f f' (U : nat -> R -> point) a i : decides same -> NoDup cells ->
    (forall h, In h hs -> In (hit_cell h) cells) ->
    (forall h, In h hs -> bc (hit_boundary h) = VelocityBB (vel (hit_boundary h))) -> (forall b s x, vel b s x = U b s) ->
    operate M e w cs2 opp bc t cells (hit_list M same rebalance hs) f = Ok f' ->
    f' a i = f a i + sum_over (fun h => exchange (dim M) e w cs2 a (U (hit_boundary h) (t - hit_dt h))) (hits_for a i hs).
  Proof.
    intros Hs Hn Hc Hbc HU H. assert (P := hit_list_all M same rebalance Hreb hs cells Hs Hn Hc).
    rewrite (operate_value t _ (fun h => if addressed a i h then exchange (dim M) e w cs2 a (U (hit_boundary h) (t - hit_dt h)) else 0) a i
      cells f f' H).
    - rewrite (sum_over_perm _ _ _ P). unfold hits_for. rewrite sum_over_filter. reflexivity.
    - intros c h Hcc Hh. apply Hbc. apply (Permutation_in _ P). apply in_flat_map. exists c. auto.
    - intros c k l h u _ _ _ _. unfold contribution. rewrite HU. reflexivity.
  Qed.

  (** Where the velocity is really evaluated: in every cell, at the unit coordinates of the point of
      the first hit of that cell. *)
  Lemma first_hit_walls t cells hs f f' (x1 : cell -> point) a i : decides same -> NoDup cells ->
    (forall h, In h hs -> In (hit_cell h) cells) ->
    (forall h, In h hs -> bc (hit_boundary h) = VelocityBB (vel (hit_boundary h))) ->
    (forall c h r, In c cells -> List.filter (fun h => same (hit_cell h) c) hs = h :: r -> hit_point h = x1 c) ->
    (forall h, In h hs -> hit_point h = x1 (hit_cell h) \/ tol <= dist (dim M) (hit_point h) (x1 (hit_cell h))) ->
    operate M e w cs2 opp bc t cells (hit_list M same rebalance hs) f = Ok f' ->
    forall u1, (forall c u, In c cells -> getPoint M c (x1 c) = Ok u -> u1 c = u) ->
    f' a i = f a i + sum_over (fun h => exchange (dim M) e w cs2 a (vel (hit_boundary h) (t - hit_dt h) (u1 (hit_cell h)))) (hits_for a i hs).
  Proof.
    intros Hs Hn Hc Hbc Hx1 Hsep H u1 Hu1. assert (P := hit_list_all M same rebalance Hreb hs cells Hs Hn Hc).
    rewrite (operate_value t _ (fun h => if addressed a i h then exchange (dim M) e w cs2 a (vel (hit_boundary h) (t - hit_dt h) (u1 (hit_cell h))) else 0) a i
      cells f f' H).
    - rewrite (sum_over_perm _ _ _ P). unfold hits_for. rewrite sum_over_filter. reflexivity.
    - intros c h Hcc Hh. apply Hbc. apply (Permutation_in _ P). apply in_flat_map. exists c. auto.
    - intros c k l h u Hcc Hkl Hh G. unfold contribution. destruct (addressed a i h); [|reflexivity].
      assert (Hhc : hit_cell h = c).
      { assert (A : In h (flat_map snd (elements (hit_list M same rebalance hs c)))) by (apply in_flat_map; exists (k, l); auto).
        apply (Permutation_in _ (hit_list_perm M same rebalance Hreb hs c)) in A. apply filter_In in A. apply Hs. apply A. }
      assert (Hk : k = x1 c).
      { assert (F := first_point M same rebalance Hreb hs (fun _ => Leaf) c (x1 c)). apply F with (l := l); [| | |exact Hkl].
        - intros k' l' [].
        - intros _ h' r' E. exact (Hx1 c h' r' Hcc E).
        - intros h' Hh' E. apply Hs in E. rewrite <- E. apply Hsep. exact Hh'. }
      subst k. rewrite Hhc, (Hu1 c u Hcc G). reflexivity.
  Qed.
End Values.
