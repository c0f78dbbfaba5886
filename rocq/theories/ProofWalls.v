(** Hit lists and the application of hits. *)
From Coq Require Import Permutation.
From Verif Require Import Prelude BigSum ModelSemiLagrangian ModelWalls SpecWalls.
Local Open Scope R_scope.

Section Trees.
  Context {K V : Type} (less : K -> K -> bool).
  Notation T := (tree K V).

  Lemma lower_range (t : T) x : forall base y p, lower_bound less t x base y = Some p ->
    y = Some p \/ (base <= p < base + size t)%nat.
  Proof.
    induction t as [|l IHl k v r IHr]; intros base y p H; cbn [lower_bound] in H; [left; exact H|].
    unfold size in *. cbn [elements] in *. rewrite app_length. cbn [length].
    destruct (less k x).
    - destruct (IHr _ _ _ H) as [E|E]; [left; exact E|right; lia].
    - destruct (IHl _ _ _ H) as [E|E]; right; [injection E as <-|]; lia.
  Qed.

  Lemma change_spec (g : V -> V) (t : T) : forall p, (p < size t)%nat ->
    exists l1 k v l2, elements t = l1 ++ (k, v) :: l2 /\ length l1 = p /\ elements (change t p g) = l1 ++ (k, g v) :: l2.
  Proof.
    induction t as [|l IHl k v r IHr]; intros p Hp; [unfold size in Hp; cbn in Hp; lia|].
    cbn [change]. destruct (Nat.ltb_spec p (size l)) as [H|H].
    - destruct (IHl p H) as (l1 & k' & v' & l2 & E1 & E2 & E3). cbn [elements]. exists l1, k', v', (l2 ++ (k, v) :: elements r).
      rewrite E1, E3, <- !app_assoc. auto.
    - destruct (Nat.eqb_spec p (size l)) as [->|Hn].
      + exists (elements l), k, v, (elements r). auto.
      + destruct (IHr (p - size l - 1)%nat) as (l1 & k' & v' & l2 & E1 & E2 & E3).
        { unfold size in *. cbn [elements] in Hp. rewrite app_length in Hp. cbn [length] in Hp. lia. }
        cbn [elements]. exists (elements l ++ (k, v) :: l1), k', v', l2. rewrite E1, E3, <- !app_assoc. cbn [app].
        split; [reflexivity|]. split; [|reflexivity]. rewrite app_length. cbn [length]. unfold size in *. lia.
  Qed.

  Lemma insert_perm (t : T) x v : Permutation (elements (insert_leaf less t x v)) ((x, v) :: elements t).
  Proof.
    induction t as [|l IHl k w r IHr]; [reflexivity|]. cbn [insert_leaf]. destruct (less x k); cbn [elements].
    - rewrite IHl. reflexivity.
    - rewrite IHr. rewrite (perm_swap (x, v) (k, w)). symmetry. apply Permutation_middle.
  Qed.

  Lemma find_range (t : T) x p : map_find less t x = Some p -> (p < size t)%nat.
  Proof.
    unfold map_find. destruct (lower_bound less t x 0 None) as [q|] eqn:E; [|discriminate].
    destruct (nth_error (elements t) q) as [[k v]|] eqn:N; [|discriminate]. destruct (less x k); [discriminate|].
    intros H. injection H as <-. apply nth_error_Some. rewrite N. discriminate.
  Qed.
End Trees.

Lemma insert_pos_le {K V} (less : K -> K -> bool) (t : tree K V) x : (insert_pos less t x <= size t)%nat.
Proof.
  induction t as [|l IHl k v r IHr]; cbn [insert_pos]; [lia|]. unfold size in *. cbn [elements]. rewrite app_length. cbn [length].
  destruct (less x k); lia.
Qed.

(** A map from keys to lists: adding one element to the list found. *)
Section Lists.
  Context {K A : Type} (less : K -> K -> bool) (rebalance : tree K (list A) -> tree K (list A)).
  Hypothesis Hreb : keeps_order rebalance.

  Lemma add_perm (t : tree K (list A)) x a :
    Permutation (flat_map snd (elements (map_add less rebalance [] (fun l => l ++ [a]) t x))) (a :: flat_map snd (elements t)).
  Proof.
    assert (C : forall p, (p < size t)%nat ->
      Permutation (flat_map snd (elements (change t p (fun l => l ++ [a])))) (a :: flat_map snd (elements t))).
    { intros p Hp. destruct (change_spec (fun l => l ++ [a]) t p Hp) as (l1 & k & v & l2 & E1 & _ & E3).
      rewrite E1, E3, !flat_map_app. cbn [flat_map snd]. rewrite <- app_assoc. cbn [app].
      rewrite (app_assoc (flat_map snd l1)). rewrite <- Permutation_middle, <- app_assoc. reflexivity. }
    assert (I : Permutation (flat_map snd (elements (rebalance (insert_leaf less t x ([] ++ [a]))))) (a :: flat_map snd (elements t))).
    { rewrite Hreb, (insert_perm less t x ([] ++ [a])). reflexivity. }
    unfold map_add. destruct (map_find less t x) as [p|] eqn:F; [exact (C p (find_range less t x p F))|].
    assert (P := insert_pos_le less t x). destruct (insert_pos less t x) as [|j]; [exact I|].
    destruct (nth_error (elements t) j) as [[k v]|] eqn:N; [|apply nth_error_None in N; unfold size in P; lia].
    destruct (less k x); [exact I|apply C; lia].
  Qed.

  (** All keys look alike for the comparison with [x]. *)
  Lemma add_far (t : tree K (list A)) x a : t <> Leaf ->
    (forall k v, In (k, v) (elements t) -> less k x = false /\ less x k = false) ->
    exists k v r, elements t = (k, v) :: r /\ elements (map_add less rebalance [] (fun l => l ++ [a]) t x) = (k, v ++ [a]) :: r.
  Proof.
    intros Ht H. assert (L : forall s base y, (forall k v, In (k, v) (elements s) -> less k x = false) -> s <> Leaf ->
      lower_bound (V := list A) less s x base y = Some base).
    { induction s as [|l IHl k v r IHr]; intros base y Hs Hn; [congruence|]. cbn [lower_bound].
      rewrite (Hs k v) by (cbn [elements]; apply in_or_app; right; left; reflexivity).
      destruct l as [|ll lk lv lr]; [cbn [lower_bound]; unfold size; cbn; f_equal; lia|].
      apply IHl; [|discriminate]. intros k' v' Hin. apply (Hs k' v'). cbn [elements]. apply in_or_app. left. exact Hin. }
    destruct (elements t) as [|[k v] r] eqn:E; [destruct t; [congruence|]; cbn in E; destruct (elements t1); discriminate|].
    exists k, v, r. split; [reflexivity|]. unfold map_add.
    assert (F : map_find less t x = Some 0%nat).
    { unfold map_find. rewrite L; [|intros k' v' Hin; apply (H k' v'); rewrite <- E; exact Hin|exact Ht]. rewrite E. cbn [nth_error].
      destruct (H k v (or_introl eq_refl)) as [_ ->]. reflexivity. }
    rewrite F. destruct (change_spec (fun l => l ++ [a]) t 0) as (l1 & k' & v' & l2 & E1 & E2 & E3); [unfold size; rewrite E; cbn; lia|].
    destruct l1; [|discriminate]. cbn [app] in E1, E3. rewrite E in E1. injection E1 as <- <- <-. exact E3.
  Qed.
  Lemma add_near (t : tree K (list A)) x a :
    (forall k v, In (k, v) (elements t) -> less k x = true /\ less x k = true) ->
    elements (map_add less rebalance [] (fun l => l ++ [a]) t x) = (x, [a]) :: elements t.
  Proof.
    intros H.
    assert (L : forall s base, (forall k v, In (k, v) (elements s) -> less k x = true) ->
      lower_bound (V := list A) less s x base None = None).
    { induction s as [|l IHl k v r IHr]; intros base Hs; [reflexivity|]. cbn [lower_bound].
      rewrite (Hs k v) by (cbn [elements]; apply in_or_app; right; left; reflexivity).
      apply IHr. intros k' v' Hin. apply (Hs k' v'). cbn [elements]. apply in_or_app. right. right. exact Hin. }
    assert (I : forall s, (forall k v, In (k, v) (elements s) -> less x k = true) ->
      insert_pos (V := list A) less s x = 0%nat /\ elements (insert_leaf less s x ([] ++ [a])) = (x, [a]) :: elements s).
    { induction s as [|l IHl k v r IHr]; intros Hs; [split; reflexivity|]. cbn [insert_pos insert_leaf].
      rewrite (Hs k v) by (cbn [elements]; apply in_or_app; right; left; reflexivity).
      destruct IHl as [E1 E2]; [intros k' v' Hin; apply (Hs k' v'); cbn [elements]; apply in_or_app; left; exact Hin|].
      split; [exact E1|]. cbn [elements]. rewrite E2. reflexivity. }
    unfold map_add, map_find. rewrite L by (intros k v Hin; apply (H k v Hin)).
    destruct (I t (fun k v Hin => proj2 (H k v Hin))) as [-> E2]. rewrite Hreb. exact E2.
  Qed.
End Lists.

(** ** Distances *)
Lemma dist_nonneg D x y : 0 <= dist D x y.
Proof. apply sqrt_pos. Qed.
Lemma dot_self D x : 0 <= dot D x x.
Proof. unfold dot. apply sumf_nonneg. intros i Hi. apply Rle_0_sqr. Qed.
Lemma dot_self_0 D x : dot D x x = 0 -> forall i, (i < D)%nat -> x i = 0.
Proof.
  induction D as [|D IH]; intros H i Hi; [lia|]. unfold dot in *. cbn [sumf] in H.
  assert (A := dot_self D x). unfold dot in A. assert (B := Rle_0_sqr (x D)). unfold Rsqr in B.
  assert (X : x D * x D = 0) by lra. assert (Y : sumf D (fun a => x a * x a) = 0) by lra.
  destruct (Nat.eq_dec i D) as [->|Hn]; [apply Rmult_integral in X; tauto|apply (IH Y i); lia].
Qed.
Lemma dist_0 D x y : dist D x y = 0 -> forall i, (i < D)%nat -> x i = y i.
Proof.
  intros H i Hi. unfold dist in H. apply sqrt_eq_0 in H; [|apply dot_self].
  assert (X := dot_self_0 D _ H i Hi). cbn beta in X. lra.
Qed.
Lemma dist_ext D x x' y y' : (forall i, (i < D)%nat -> x i = x' i) -> (forall i, (i < D)%nat -> y i = y' i) -> dist D x y = dist D x' y'.
Proof. intros H H'. unfold dist, dot. f_equal. apply sumf_ext. intros i Hi. rewrite H, H' by exact Hi. reflexivity. Qed.
Lemma dist_sym D x y : dist D x y = dist D y x.
Proof. unfold dist, dot. f_equal. apply sumf_ext. intros i Hi. ring. Qed.
Lemma dist_self D x : dist D x x = 0.
Proof. unfold dist. replace (dot D _ _) with 0; [apply sqrt_0|]. unfold dot. symmetry. apply sumf_zero. intros i Hi. ring. Qed.
Lemma dist_eq D x y : (forall i, (i < D)%nat -> x i = y i) -> dist D x y = 0.
Proof. intros H. rewrite (dist_ext D x y y y H) by auto. apply dist_self. Qed.

Section Hits.
  Context {cell : Type} (M : mesh cell) (same : cell -> cell -> bool) (rebalance : hit_tree (cell := cell) -> hit_tree (cell := cell)).
  Hypothesis Hreb : keeps_order rebalance.

  Lemma addHit_perm m h c : same (hit_cell h) c = true ->
    Permutation (flat_map snd (elements (addHit M same rebalance m h c))) (h :: flat_map snd (elements (m c))).
  Proof. intros H. unfold addHit. rewrite H. apply add_perm. exact Hreb. Qed.

  Lemma fold_perm hs : forall m c, Permutation (flat_map snd (elements (fold_left (addHit M same rebalance) hs m c)))
    (List.filter (fun h => same (hit_cell h) c) hs ++ flat_map snd (elements (m c))).
  Proof.
    induction hs as [|h hs IH]; intros m c; cbn [fold_left List.filter]; [reflexivity|]. rewrite IH.
    destruct (same (hit_cell h) c) eqn:E.
    - rewrite (addHit_perm m h c E). cbn [app]. symmetry. apply Permutation_middle.
    - unfold addHit at 1. rewrite E. reflexivity.
  Qed.

  (** Every hit is kept, exactly once. *)
  Lemma hit_list_perm hs c : Permutation (flat_map snd (elements (hit_list M same rebalance hs c)))
    (List.filter (fun h => same (hit_cell h) c) hs).
  Proof. unfold hit_list. rewrite fold_perm. cbn. rewrite app_nil_r. reflexivity. Qed.

  Lemma hit_list_all hs cells : decides same -> NoDup cells -> (forall h, In h hs -> In (hit_cell h) cells) ->
    Permutation (flat_map (fun c => flat_map snd (elements (hit_list M same rebalance hs c))) cells) hs.
  Proof.
    intros Hs Hn Hin.
    assert (P : Permutation (flat_map (fun c => flat_map snd (elements (hit_list M same rebalance hs c))) cells)
      (flat_map (fun c => List.filter (fun h => same (hit_cell h) c) hs) cells)).
    { clear Hin Hn. induction cells as [|c cells IH]; cbn [flat_map]; [reflexivity|]. rewrite IH, hit_list_perm. reflexivity. }
    rewrite P. clear P. revert Hin. induction hs as [|h hs IH]; intros Hin.
    - cbn. clear. induction cells; [reflexivity|assumption].
    - assert (A := Hin h (or_introl eq_refl)). assert (IH' := IH (fun h' H => Hin h' (or_intror H))).
      eapply Permutation_trans; [|apply perm_skip; exact IH']. clear IH IH' Hin.
      apply in_split in A. destruct A as (c1 & c2 & E). rewrite E in *. clear E.
      assert (N : forall c, In c (c1 ++ c2) -> c <> hit_cell h).
      { intros c Hc ->. apply NoDup_remove_2 in Hn. contradiction. }
      assert (Skip : forall l, (forall c, In c l -> c <> hit_cell h) ->
        flat_map (fun c => List.filter (fun h' => same (hit_cell h') c) (h :: hs)) l =
        flat_map (fun c => List.filter (fun h' => same (hit_cell h') c) hs) l).
      { induction l as [|c l IHl]; intros Hl; [reflexivity|]. cbn [flat_map]. rewrite IHl by (intros; apply Hl; right; assumption).
        cbn [List.filter]. destruct (same (hit_cell h) c) eqn:E; [|reflexivity]. apply Hs in E.
        exfalso. apply (Hl c (or_introl eq_refl)). symmetry. exact E. }
      rewrite !flat_map_app. cbn [flat_map]. rewrite (Skip c1), (Skip c2) by (intros; apply N; apply in_or_app; tauto).
      cbn [List.filter]. rewrite (proj2 (Hs (hit_cell h) (hit_cell h)) eq_refl). cbn [app].
      rewrite <- Permutation_middle. reflexivity.
  Qed.

  Definition shape_ok (x1 : point) (tr : hit_tree (cell := cell)) : Prop := forall k l, In (k, l) (elements tr) -> k = x1.

  (** Every hit of a cell is filed under the point of the first one. *)
  Lemma first_point hs : forall m c x1, shape_ok x1 (m c) ->
    (m c = Leaf -> forall h r, List.filter (fun h => same (hit_cell h) c) hs = h :: r -> hit_point h = x1) ->
    (forall h, In h hs -> same (hit_cell h) c = true -> hit_point h = x1 \/ tol <= dist (dim M) (hit_point h) x1) ->
    shape_ok x1 (fold_left (addHit M same rebalance) hs m c).
  Proof.
    induction hs as [|h hs IH]; intros m c x1 Hok Hfirst Hsep; cbn [fold_left]; [exact Hok|].
    assert (Hsep' : forall h', In h' hs -> same (hit_cell h') c = true -> hit_point h' = x1 \/ tol <= dist (dim M) (hit_point h') x1)
      by (intros; apply Hsep; [right; assumption|assumption]).
    destruct (same (hit_cell h) c) eqn:E.
    - assert (S : shape_ok x1 (addHit M same rebalance m h c) /\ addHit M same rebalance m h c <> Leaf).
      { unfold addHit. rewrite E.
        assert (Hp : forall h0, map_add (PointComp (dim M)) rebalance [] (fun l => l ++ [h0]) (m c) (hit_point h0) <> Leaf).
        { intros h0 A. assert (P := add_perm (PointComp (dim M)) rebalance Hreb (m c) (hit_point h0) h0). rewrite A in P. cbn in P.
          apply Permutation_nil in P. discriminate. }
        split; [|apply Hp].
        assert (Near : hit_point h = x1 -> shape_ok x1 (map_add (PointComp (dim M)) rebalance [] (fun l => l ++ [h]) (m c) (hit_point h))).
        { intros D0.
          assert (X : PointComp (dim M) x1 x1 = true).
          { unfold PointComp. rewrite dist_self. destruct (Rlt_dec 0 tol) as [|n]; [reflexivity|]. exfalso. apply n. unfold tol. apply Rdiv_lt_0_compat; [lra|apply pow_lt; lra]. }
          unfold shape_ok. rewrite (add_near (PointComp (dim M)) rebalance Hreb).
          - intros k l [Hin|Hin]; [injection Hin as <- <-; exact D0|exact (Hok k l Hin)].
          - intros k v Hin. rewrite (Hok k v Hin), D0. auto. }
        destruct (Hsep h (or_introl eq_refl) E) as [D0|D1]; [exact (Near D0)|].
        destruct (m c) as [|tl tk tv tr] eqn:Em.
        - apply Near. apply (Hfirst eq_refl h (List.filter (fun h => same (hit_cell h) c) hs)). cbn [List.filter]. rewrite E. reflexivity.
        - destruct (add_far (PointComp (dim M)) rebalance (Node tl tk tv tr) (hit_point h) h) as (k & v & r & E1 & E2); [discriminate| |].
          + intros k v Hin. rewrite (Hok k v Hin). unfold PointComp. rewrite (dist_sym _ x1).
            destruct (Rlt_dec _ _); [lra|auto].
          + unfold shape_ok. rewrite E2. intros k' l [Hin|Hin].
            * injection Hin as <- <-. apply (Hok k v). rewrite E1. left. reflexivity.
            * apply (Hok k' l). rewrite E1. right. exact Hin. }
      apply IH; [exact (proj1 S)|intros A; destruct (proj2 S A)|exact Hsep'].
    - apply IH; [|intros A h' r' F; apply (Hfirst) with (r := r')|exact Hsep'].
      + unfold addHit. rewrite E. exact Hok.
      + unfold addHit in A. rewrite E in A. exact A.
      + cbn [List.filter]. rewrite E. exact F.
  Qed.
End Hits.
