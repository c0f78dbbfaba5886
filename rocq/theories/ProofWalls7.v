(** Steps of the channel: one and two hits per path. *)
From Coq Require Import Permutation.
From Verif Require Import Prelude BigSum ModelStencils ModelSemiLagrangian SpecSemiLagrangian ProofSemiLagrangian ProofSemiLagrangian2
  ProofSemiLagrangian3 ProofSemiLagrangian4 ProofSemiLagrangian5 ModelWalls SpecWalls ProofWalls ProofWalls2 ProofWalls3 ProofWalls6.
Local Open Scope R_scope.

(** ** The boundary operation succeeds *)
Section Total.
  Context {cell : Type} (M : mesh cell) (e : nat -> point) (w : nat -> R) (cs2 : R) (opp : nat -> nat)
    (same : cell -> cell -> bool) (rebalance : hit_tree (cell := cell) -> hit_tree (cell := cell)) (bc : nat -> condition).
  Hypothesis Hreb : keeps_order rebalance.

  Lemma add_keys (t : hit_tree (cell := cell)) x h k l :
    In (k, l) (elements (map_add (PointComp (dim M)) rebalance [] (fun l => l ++ [h]) t x)) -> k = x \/ exists l', In (k, l') (elements t).
  Proof.
    assert (Ch : forall p, (p < size t)%nat -> In (k, l) (elements (change t p (fun l => l ++ [h]))) -> exists l', In (k, l') (elements t)).
    { intros p Hp Hin. destruct (change_spec (fun l => l ++ [h]) t p Hp) as (l1 & k' & v & l2 & E1 & _ & E3). rewrite E3 in Hin. rewrite E1.
      apply in_app_or in Hin. destruct Hin as [Hin|[Hin|Hin]].
      - exists l. apply in_or_app. left. exact Hin.
      - injection Hin as <- _. exists v. apply in_or_app. right. left. reflexivity.
      - exists l. apply in_or_app. right. right. exact Hin. }
    assert (Ins : In (k, l) (elements (rebalance (insert_leaf (PointComp (dim M)) t x ([] ++ [h])))) -> k = x \/ exists l', In (k, l') (elements t)).
    { rewrite Hreb. intros Hin. apply (Permutation_in _ (insert_perm _ t x _)) in Hin. destruct Hin as [Hin|Hin]; [injection Hin as <- _; left; reflexivity|right; exists l; exact Hin]. }
    unfold map_add. destruct (map_find (PointComp (dim M)) t x) as [p|] eqn:F; [intros H; right; exact (Ch p (find_range _ t x p F) H)|].
    assert (P := insert_pos_le (PointComp (dim M)) t x). destruct (insert_pos (PointComp (dim M)) t x) as [|j]; [exact Ins|].
    destruct (nth_error (elements t) j) as [[k' v]|] eqn:N; [|intros H; right; exists l; exact H].
    destruct (PointComp (dim M) k' x); [exact Ins|]. intros H. right. apply (Ch j); [|exact H]. apply nth_error_Some. rewrite N. discriminate.
  Qed.

  Lemma list_keys hs : forall c k l, In (k, l) (elements (hit_list M same rebalance hs c)) -> exists h, In h hs /\ hit_point h = k.
  Proof.
    unfold hit_list.
    assert (G : forall hs m, (forall c k l, In (k, l) (elements (m c)) -> exists h, In h hs /\ hit_point h = k) ->
      forall r c k l, In (k, l) (elements (fold_left (addHit M same rebalance) r m c)) -> exists h, In h (hs ++ r) /\ hit_point h = k).
    { clear hs. intros hs m Hm r. revert hs m Hm. induction r as [|h r IH]; intros hs m Hm c k l; cbn [fold_left]; [rewrite app_nil_r; apply Hm|].
      intros Hin. destruct (IH (hs ++ [h]) (addHit M same rebalance m h)) with (c := c) (k := k) (l := l) as (h' & Hh & E); [|exact Hin|].
      - intros c' k' l'. unfold addHit. destruct (same (hit_cell h) c').
        + intros H. apply add_keys in H. destruct H as [->|(l2 & H)]; [exists h; split; [apply in_or_app; right; left; reflexivity|reflexivity]|].
          destruct (Hm _ _ _ H) as (h2 & H2 & E2). exists h2. split; [apply in_or_app; left; exact H2|exact E2].
        + intros H. destruct (Hm _ _ _ H) as (h2 & H2 & E2). exists h2. split; [apply in_or_app; left; exact H2|exact E2].
      - exists h'. rewrite <- app_assoc in Hh. auto. }
    intros c k l H. destruct (G [] (fun _ => Leaf)) with (r := hs) (c := c) (k := k) (l := l) as (h & Hh & E); [intros ? ? ? []|exact H|].
    exists h. auto.
  Qed.

  Lemma operate_total t (hs : list (hit cell)) cells : forall f, (forall c h, In h hs -> exists u, getPoint M c (hit_point h) = Ok u) ->
    exists f', operate M e w cs2 opp bc t cells (hit_list M same rebalance hs) f = Ok f'.
  Proof.
    intros f H. revert f. induction cells as [|c cells IH]; intros f; cbn [operate]; [eexists; reflexivity|].
    assert (Q : exists q, quadrature M c (elements (hit_list M same rebalance hs c)) = Ok q).
    { assert (K := list_keys hs c). induction (elements (hit_list M same rebalance hs c)) as [|[k l] r IHr]; cbn [quadrature]; [eexists; reflexivity|].
      destruct (K k l (or_introl eq_refl)) as (h & Hh & <-). destruct (H c h Hh) as [u ->]. cbn [obind].
      destruct IHr as [q ->]; [intros k l' Hin; apply (K k l'); right; exact Hin|]. cbn [obind]. eexists. reflexivity. }
    destruct Q as [q Q]. unfold operate_cell. rewrite Q. cbn [obind]. apply IH.
  Qed.
End Total.

(** ** One cell with one node *)
Section OneCell.
  Variables (M : mesh unit) (opp : nat -> nat) (e : nat -> point) (dt : R) (Q : nat) (node : nat -> point) (shape : nat -> point -> R).
  Notation dofs := (fun (_ : unit) (j : nat) => j).
  Variable P : nat -> list (hit unit) -> Prop.
  Hypothesis Hpath : forall a, (1 <= a < Q)%nat -> exists l x y,
    path_loop M e opp dt 51 [departs M e dt tt 0 (to_real M tt (node 0%nat)) a] = Some (Ok l) /\
    collect (event_entries M shape dofs 1) l = Ok x /\ collect (event_hits M e dt) l = Ok y /\
    Forall (fun h => (hit_index h, hit_direction h) = (0%nat, a)) y /\ P a y.

  Lemma one_trackers dirs : trackers M e dt 1 node dofs dirs [tt] [] = map (departs M e dt tt 0 (to_real M tt (node 0%nat))) dirs.
  Proof. cbn. rewrite !app_nil_r. reflexivity. Qed.

  Lemma one_cell : exists z hs ys, assemble M e opp dt 1 node dofs Q shape [tt] = Some (Ok z) /\
    all_hits M e opp dt 1 node dofs Q [tt] = Some (Ok hs) /\
    hs = concat ys /\ Forall2 P (List.seq 1 (Q - 1)) ys /\ (forall a, (1 <= a < Q)%nat -> P a (hits_for a 0 hs)) /\
    (forall h, In h hs -> (1 <= hit_direction h < Q)%nat).
  Proof.
    set (dirs := List.seq 1 (Q - 1)).
    assert (Hd : forall a, In a dirs -> (1 <= a < Q)%nat) by (intros a Ha; apply in_seq in Ha; lia).
    destruct (Forall2_build (fun a xy => outputs M e opp dt (event_entries M shape dofs 1) (departs M e dt tt 0 (to_real M tt (node 0%nat)) a) (fst xy) /\
        outputs M e opp dt (event_hits M e dt) (departs M e dt tt 0 (to_real M tt (node 0%nat)) a) (snd xy) /\
        Forall (fun h => (hit_index h, hit_direction h) = (0%nat, a)) (snd xy) /\ P a (snd xy)) dirs) as [xys F].
    { intros a Ha. destruct (Hpath a (Hd a Ha)) as (l & x & y & E & Ex & Ey & Hf & HP). exists (x, y). cbn [fst snd].
      split; [exists l; unfold follow; rewrite E; auto|]. split; [exists l; unfold follow; rewrite E; auto|]. auto. }
    set (ys := map snd xys).
    assert (Fy : Forall2 (fun el y => Forall (fun h => (hit_index h, hit_direction h) = dest el) y) (map (departs M e dt tt 0 (to_real M tt (node 0%nat))) dirs) ys).
    { unfold ys. clear -F. induction F as [|a xy l m (A & B & C & D) F IH]; cbn [map]; constructor; [exact C|exact IH]. }
    assert (Hf : forall a, (1 <= a < Q)%nat -> exists y, In (departs M e dt tt 0 (to_real M tt (node 0%nat)) a, y) (combine (map (departs M e dt tt 0 (to_real M tt (node 0%nat))) dirs) ys) /\ P a y).
    { intros a Ha. assert (Hin : In a dirs) by (apply in_seq; lia). unfold ys. clear -F Hin. induction F as [|b xy l m (A & B & C & D) F IH]; [destruct Hin|].
      cbn [map combine]. destruct Hin as [->|Hin]; [exists (snd xy); split; [left; reflexivity|exact D]|]. destruct (IH Hin) as (y & Hy & HP). exists y. split; [right; exact Hy|exact HP]. }
    exists (concat (map fst xys)), (concat ys), ys.
    split; [unfold assemble; apply fill_ok; exists (map fst xys); rewrite one_trackers; split; [|reflexivity];
      fold dirs; clear -F; induction F as [|a xy l m (A & B & C & D) F IH]; cbn [map]; constructor; [exact A|exact IH]|].
    split; [unfold all_hits; apply fill_ok; exists ys; rewrite one_trackers; split; [|reflexivity];
      fold dirs; unfold ys; clear -F; induction F as [|a xy l m (A & B & C & D) F IH]; cbn [map]; constructor; [exact B|exact IH]|].
    split; [reflexivity|]. split; [unfold ys; clear -F; induction F as [|a xy l m (A & B & C & D) F IH]; cbn [map]; constructor; [exact D|exact IH]|].
    split.
    - intros a Ha. destruct (Hf a Ha) as (y & Hy & HP).
      assert (E := hits_of_tracker ys _ (departs M e dt tt 0 (to_real M tt (node 0%nat)) a) y Fy). cbn [departs dest_direction dest_index] in E. rewrite E; [exact HP| |exact Hy].
      rewrite map_map. apply FinFun.Injective_map_NoDup; [|apply seq_NoDup]. intros a1 a2 H. unfold dest in H. cbn in H. injection H as H. exact H.
    - intros h Hh. apply in_concat in Hh. destruct Hh as (y & Hy & Hh). destruct (Forall2_in_r _ _ _ _ Fy Hy) as (el & Hel & Hfo).
      apply in_map_iff in Hel. destruct Hel as (a & <- & Ha). rewrite Forall_forall in Hfo. specialize (Hfo h Hh). unfold dest in Hfo. cbn in Hfo.
      injection Hfo as _ ->. apply Hd. exact Ha.
  Qed.
End OneCell.

(** ** Paths of the channel *)
Definition walls4 (f : nat) : behind unit := BounceBack f.
Definition mid (_ : nat) : point := fun _ => 1 / 2.
Definition one_shape (_ : nat) (_ : point) : R := 1.
Definition wall_of (a : nat) : nat := if Rlt_dec 0 (e9 a 1%nat) then 0%nat else 1%nat.
(** The hit of direction [a] on wall [s] after the time [d] at first coordinate [X]. *)
Definition is_hit (a s : nat) (d X : R) (h : hit unit) : Prop :=
  hit_direction h = a /\ hit_dt h = d /\ hit_point h 0%nat = X /\ hit_point h 1%nat = INR s /\ hit_boundary h = (2 + s)%nat.
Definition hits1 (a : nat) (y : list (hit unit)) : Prop :=
  if Req_EM_T (e9 a 1%nat) 0 then y = [] else exists h, y = [h] /\ is_hit a (wall_of a) (1 / 2) (5 - e9 a 0%nat / 2) h.
Definition hits2 (a : nat) (y : list (hit unit)) : Prop :=
  if Req_EM_T (e9 a 1%nat) 0 then y = [] else exists h h', y = [h; h'] /\ is_hit a (wall_of a) (1 / 2) (5 - e9 a 0%nat / 2) h /\
    is_hit a (1 - wall_of a) (3 / 2) (5 + e9 a 0%nat / 2) h'.

Notation C4 := (chan walls4).
Notation start4 dt i a := (departs C4 e9 dt tt i (to_real C4 tt (mid 0%nat)) a).

Lemma found_entries (el : tracker unit) : departurePoint el 0%nat = 5 \/ 0 <= departurePoint el 0%nat <= 10 -> 0 <= departurePoint el 1%nat <= 1 ->
  exists x, collect (event_entries C4 one_shape (fun _ j => j) 1) [Found el] = Ok x.
Proof.
  intros H0 H1. cbn [collect event_entries]. unfold shapeValues. cbn [to_unit chan dim].
  assert (I : all_inside 2 (snap_point (fun i => departurePoint el i / width i)) = true).
  { apply all_inside_iff. intros i Hi. unfold snap_point. apply snap_inside. assert (T := tol_small). unfold width. destruct i as [|[|i]]; [| |lia]; cbn [Nat.eqb]; lra. }
  rewrite I. cbn [obind]. eexists. reflexivity.
Qed.

Lemma path1 i a : (1 <= a < 9)%nat -> exists l x y, path_loop C4 e9 opp9 1 51 [start4 1 i a] = Some (Ok l) /\
  collect (event_entries C4 one_shape (fun _ j => j) 1) l = Ok x /\ collect (event_hits C4 e9 1) l = Ok y /\
  Forall (fun h => (hit_index h, hit_direction h) = (i, a)) y /\ hits1 a y /\ forall el, ~ In (Diagonal el) l.
Proof.
  intros Ha. destruct (e9_cases a Ha) as (Hc & Hx & Hopp). assert (O0 := Hopp 0%nat ltac:(lia)). assert (O1 := Hopp 1%nat ltac:(lia)).
  set (el := start4 1 i a). assert (P0 : currentPoint el 0%nat = 5) by (cbn; unfold mid, width; cbn [Nat.eqb]; lra).
  assert (P1 : currentPoint el 1%nat = 1 / 2) by (cbn; unfold mid, width; cbn [Nat.eqb]; lra).
  assert (Q0 : departurePoint el 0%nat = 5 - 1 * e9 a 0%nat) by (cbn; unfold mid, width; cbn [Nat.eqb]; lra).
  assert (Q1 : departurePoint el 1%nat = 1 / 2 - 1 * e9 a 1%nat) by (cbn; unfold mid, width; cbn [Nat.eqb]; lra).
  unfold hits1. destruct (Req_EM_T (e9 a 1%nat) 0) as [Z|Z].
  - destruct (chan_found walls4 1 el (5 - 1 * e9 a 0%nat) (1 / 2)) as (el1 & S1 & D1 & C1 & Q'); [|reflexivity|exact Q0|rewrite Q1, Z; ring|lra|lra|cbn; lia|].
    { exact (chan_located _ _ 5 (1 / 2) P0 P1 ltac:(lra) ltac:(lra)). }
    destruct (found_entries el1) as [x Ex]; [right; rewrite Q', Q0; lra|rewrite Q', Q1, Z; lra|].
    exists [Found el1], x, []. split; [rewrite loop_S, S1; reflexivity|]. split; [exact Ex|]. split; [reflexivity|]. split; [constructor|].
    split; [reflexivity|]. intros el2 [H|[]]. discriminate.
  - assert (W : exists s, s = wall_of a /\ 1 / 2 - 1 / 2 * e9 a 1%nat = INR s /\
      (s = 0%nat /\ 1 / 2 - 1 * e9 a 1%nat <= - (1 / 100) \/ s = 1%nat /\ 101 / 100 <= 1 / 2 - 1 * e9 a 1%nat)).
    { unfold wall_of. destruct Hc as [[Hc _]|[Hc|Hc]]; [contradiction| |]; rewrite Hc; destruct (Rlt_dec 0 _); try lra; eexists; (split; [reflexivity|]); cbn [INR]; (split; [lra|]);
        solve [left; split; [reflexivity|lra]|right; split; [reflexivity|lra]]. }
    destruct W as (s & Ws & W1 & W2).
    destruct (chan_hit walls4 1 el 5 (1 / 2) 1 a s (1 / 2) (2 + s) P0 P1 Q0 Q1 Ha ltac:(lra) ltac:(lra) ltac:(apply stable_mid; lra) ltac:(lra) ltac:(lra) W1 W2
      eq_refl eq_refl ltac:(cbn; lia)) as (el1 & S1 & D1 & C1 & L1 & N1 & P10 & P11 & Q10 & Q11 & T1).
    assert (Bs : 0 <= INR s <= 1) by (destruct W2 as [[-> _]|[-> _]]; cbn; lra).
    assert (In1 : currentCell el1 = tt) by (destruct (currentCell el1); reflexivity).
    destruct (chan_found walls4 1 el1 5 (1 / 2)) as (el2 & S2 & D2 & C2 & Q'); [|rewrite N1; reflexivity|rewrite Q10, O0; lra|rewrite Q11, O1, <- W1; lra|lra|lra|rewrite L1; cbn; lia|].
    { rewrite In1. exact (chan_located _ _ _ _ P10 P11 ltac:(lra) Bs). }
    destruct (found_entries el2) as [x Ex]; [right; rewrite Q', Q10, O0; lra|rewrite Q', Q11, O1, <- W1; lra|].
    set (h := make_hit C4 e9 1 el1 (2 + s)).
    assert (Ih : hit_index h = i) by (unfold dest in D1; injection D1 as D1 _; exact D1).
    assert (Hh : is_hit a (wall_of a) (1 / 2) (5 - e9 a 0%nat / 2) h).
    { unfold dest in D1. injection D1 as D1 D1'. unfold is_hit, h, make_hit. cbn [hit_direction hit_dt hit_point hit_boundary]. rewrite <- Ws.
      split; [exact D1'|]. split; [cbn [dim chan]; rewrite T1; lra|]. split; [rewrite P10; lra|]. split; [exact P11|reflexivity]. }
    exists [ContinueHit el1 (2 + s); Found el2], x, [h].
    split; [rewrite loop_S, S1, loop_S, S2; reflexivity|].
    split; [change (obind (collect (event_entries C4 one_shape (fun _ j => j) 1) [Found el2]) (fun y => Ok y) = Ok x); rewrite Ex; reflexivity|].
    split; [reflexivity|]. split; [constructor; [|constructor]; destruct Hh as (-> & _); rewrite Ih; reflexivity|].
    split; [exists h; auto|]. intros el3 [H|[H|[]]]; discriminate.
Qed.

Lemma path2 i a : (1 <= a < 9)%nat -> exists l x y, path_loop C4 e9 opp9 2 51 [start4 2 i a] = Some (Ok l) /\
  collect (event_entries C4 one_shape (fun _ j => j) 1) l = Ok x /\ collect (event_hits C4 e9 2) l = Ok y /\
  Forall (fun h => (hit_index h, hit_direction h) = (i, a)) y /\ hits2 a y /\ forall el, ~ In (Diagonal el) l.
Proof.
  intros Ha. destruct (e9_cases a Ha) as (Hc & Hx & Hopp). assert (O0 := Hopp 0%nat ltac:(lia)). assert (O1 := Hopp 1%nat ltac:(lia)).
  destruct (opp9_opp a Ha) as [Ha' Hoo]. set (a' := opp9 a) in *.
  set (el := start4 2 i a). assert (P0 : currentPoint el 0%nat = 5) by (cbn; unfold mid, width; cbn [Nat.eqb]; lra).
  assert (P1 : currentPoint el 1%nat = 1 / 2) by (cbn; unfold mid, width; cbn [Nat.eqb]; lra).
  assert (Q0 : departurePoint el 0%nat = 5 - 2 * e9 a 0%nat) by (cbn; unfold mid, width; cbn [Nat.eqb]; lra).
  assert (Q1 : departurePoint el 1%nat = 1 / 2 - 2 * e9 a 1%nat) by (cbn; unfold mid, width; cbn [Nat.eqb]; lra).
  unfold hits2. destruct (Req_EM_T (e9 a 1%nat) 0) as [Z|Z].
  - destruct (chan_found walls4 2 el (5 - 2 * e9 a 0%nat) (1 / 2)) as (el1 & S1 & D1 & C1 & Q'); [|reflexivity|exact Q0|rewrite Q1, Z; ring|lra|lra|cbn; lia|].
    { exact (chan_located _ _ 5 (1 / 2) P0 P1 ltac:(lra) ltac:(lra)). }
    destruct (found_entries el1) as [x Ex]; [right; rewrite Q', Q0; lra|rewrite Q', Q1, Z; lra|].
    exists [Found el1], x, []. split; [rewrite loop_S, S1; reflexivity|]. split; [exact Ex|]. split; [reflexivity|]. split; [constructor|].
    split; [reflexivity|]. intros el2 [H|[]]. discriminate.
  - assert (W : exists s, s = wall_of a /\ 1 / 2 - 1 / 2 * e9 a 1%nat = INR s /\
      (s = 0%nat /\ e9 a 1%nat = 1 \/ s = 1%nat /\ e9 a 1%nat = -1)).
    { unfold wall_of. destruct Hc as [[Hc _]|[Hc|Hc]]; [contradiction| |]; rewrite Hc; destruct (Rlt_dec 0 _); try lra; eexists; (split; [reflexivity|]); cbn [INR]; (split; [lra|]);
        solve [left; split; [reflexivity|lra]|right; split; [reflexivity|lra]]. }
    destruct W as (s & Ws & W1 & W2). set (s' := (1 - s)%nat).
    assert (Es : INR s' = 1 - INR s) by (unfold s'; destruct W2 as [[-> _]|[-> _]]; cbn; lra).
    assert (Bs : 0 <= INR s <= 1) by (destruct W2 as [[-> _]|[-> _]]; cbn; lra).
    destruct (chan_hit walls4 2 el 5 (1 / 2) 2 a s (1 / 2) (2 + s) P0 P1 Q0 Q1 Ha ltac:(lra) ltac:(lra) ltac:(apply stable_mid; lra) ltac:(lra) ltac:(lra) W1
      ltac:(destruct W2 as [[-> W2]|[-> W2]]; rewrite W2; [left|right]; split; [reflexivity|lra|reflexivity|lra])
      eq_refl eq_refl ltac:(cbn; lia)) as (el1 & S1 & D1 & C1 & L1 & N1 & P10 & P11 & Q10 & Q11 & T1).
    fold a' in C1, Q10, Q11.
    assert (St : stable (INR s)) by (unfold stable; destruct W2 as [[-> _]|[-> _]]; cbn; [apply snap_zero|apply snap_one]).
    destruct (chan_hit walls4 2 el1 (5 - 1 / 2 * e9 a 0%nat) (INR s) (2 - 1 / 2) a' s' 1 (2 + s') P10 P11 Q10 Q11 Ha' ltac:(lra) Bs St ltac:(lra) ltac:(lra)
      ltac:(rewrite O1, Es, <- W1; destruct W2 as [[_ W2]|[_ W2]]; rewrite W2; lra)
      ltac:(rewrite O1; unfold s'; destruct W2 as [[-> W2]|[-> W2]]; rewrite W2; cbn; [right|left]; split; [reflexivity|lra|reflexivity|lra])
      C1 eq_refl ltac:(rewrite L1; cbn; lia)) as (el2 & S2 & D2 & C2 & L2 & N2 & P20 & P21 & Q20 & Q21 & T2).
    rewrite Hoo in C2, Q20, Q21.
    assert (In2 : currentCell el2 = tt) by (destruct (currentCell el2); reflexivity).
    assert (X2 : departurePoint el2 0%nat = 5) by (rewrite Q20, O0; lra).
    assert (Y2 : departurePoint el2 1%nat = 1 / 2) by (rewrite Q21, Es, <- W1; lra).
    destruct (chan_found walls4 2 el2 5 (1 / 2)) as (el3 & S3 & D3 & C3 & Q'); [|rewrite N2, N1; reflexivity|exact X2|exact Y2|lra|lra|rewrite L2, L1; cbn; lia|].
    { rewrite In2. apply (chan_located _ _ _ _ P20 P21); [rewrite O0; lra|rewrite Es; lra]. }
    destruct (found_entries el3) as [x Ex]; [right; rewrite Q', X2; lra|rewrite Q', Y2; lra|].
    set (h := make_hit C4 e9 2 el1 (2 + s)). set (h' := make_hit C4 e9 2 el2 (2 + s')).
    assert (Ih : hit_index h = i) by (unfold dest in D1; injection D1 as D1 _; exact D1).
    assert (Hh : is_hit a (wall_of a) (1 / 2) (5 - e9 a 0%nat / 2) h).
    { unfold dest in D1. injection D1 as D1 D1'. unfold is_hit, h, make_hit. cbn [hit_direction hit_dt hit_point hit_boundary]. rewrite <- Ws.
      split; [exact D1'|]. split; [cbn [dim chan]; rewrite T1; lra|]. split; [rewrite P10; lra|]. split; [exact P11|reflexivity]. }
    assert (Ih' : hit_index h' = i) by (rewrite D1 in D2; unfold dest in D2; injection D2 as D2 _; exact D2).
    assert (Hh' : is_hit a (1 - wall_of a) (3 / 2) (5 + e9 a 0%nat / 2) h').
    { rewrite D1 in D2. unfold dest in D2. injection D2 as D2 D2'. unfold is_hit, h', make_hit. cbn [hit_direction hit_dt hit_point hit_boundary]. rewrite <- Ws.
      split; [exact D2'|]. split; [cbn [dim chan]; rewrite T2; lra|]. split; [rewrite P20, O0; lra|]. split; [exact P21|reflexivity]. }
    exists [ContinueHit el1 (2 + s); ContinueHit el2 (2 + s'); Found el3], x, [h; h'].
    split; [rewrite loop_S, S1, loop_S, S2, loop_S, S3; reflexivity|].
    split; [change (obind (obind (collect (event_entries C4 one_shape (fun _ j => j) 1) [Found el3]) (fun y => Ok y)) (fun y => Ok y) = Ok x); rewrite Ex; reflexivity|].
    split; [reflexivity|]. split; [constructor; [|constructor; [|constructor]]; [destruct Hh as (-> & _); rewrite Ih; reflexivity|destruct Hh' as (-> & _); rewrite Ih'; reflexivity]|].
    split; [exists h, h'; auto|]. intros el4 [H|[H|[H|[]]]]; discriminate.
Qed.
