(** Paths on meshes with bounce-back walls; uniform populations. *)
From Coq Require Import Permutation.
From Verif Require Import Prelude BigSum ModelSemiLagrangian SpecSemiLagrangian ProofSemiLagrangian ProofSemiLagrangian2
  ProofSemiLagrangian3 ProofSemiLagrangian4 ModelWalls SpecWalls ProofWalls ProofWalls2.
Local Open Scope R_scope.

(** Hits of one destination come from one path. *)
Lemma hits_of_tracker {cell} (ys : list (list (hit cell))) (q : list (tracker cell)) el y :
  Forall2 (fun el y => Forall (fun h => (hit_index h, hit_direction h) = dest el) y) q ys -> NoDup (map dest q) ->
  In (el, y) (combine q ys) -> hits_for (dest_direction el) (dest_index el) (concat ys) = y.
Proof.
  assert (All : forall (el : tracker cell) (y : list (hit cell)), Forall (fun h => (hit_index h, hit_direction h) = dest el) y -> hits_for (dest_direction el) (dest_index el) y = y).
  { intros e0 y0 F. unfold hits_for. induction F as [|h y0 H F IH]; [reflexivity|]. cbn [List.filter]. unfold addressed at 1.
    unfold dest in H. injection H as -> ->. rewrite !Nat.eqb_refl. cbn [andb]. f_equal. exact IH. }
  assert (No : forall (el e1 : tracker cell) (y : list (hit cell)), dest e1 <> dest el -> Forall (fun h => (hit_index h, hit_direction h) = dest e1) y -> hits_for (dest_direction el) (dest_index el) y = []).
  { intros e0 e1 y0 Hne F. unfold hits_for. induction F as [|h y0 H F IH]; [reflexivity|]. cbn [List.filter]. unfold addressed at 1.
    destruct (Nat.eqb_spec (hit_direction h) (dest_direction e0)) as [E1|]; [|exact IH].
    destruct (Nat.eqb_spec (hit_index h) (dest_index e0)) as [E2|]; [|exact IH].
    exfalso. apply Hne. rewrite <- H. unfold dest. rewrite E1, E2. reflexivity. }
  intros F. induction F as [|e0 y0 q ys H F IH]; intros Hn Hin; [destruct Hin|]. cbn [combine In concat map] in *.
  inversion Hn as [|? ? Hn1 Hn2]; subst. unfold hits_for in *. rewrite filter_app. destruct Hin as [Hin|Hin].
  - injection Hin as -> ->. rewrite (All el y H). replace (List.filter _ (concat ys)) with (@nil (hit cell)); [apply app_nil_r|].
    symmetry. clear IH Hn. induction F as [|e1 y1 q ys H1 F IH]; [reflexivity|]. cbn [concat map] in *. rewrite filter_app.
    rewrite (No el e1 y1), IH; auto.
    + intros X. apply Hn1. right. exact X.
    + inversion Hn2; assumption.
    + intros X. apply Hn1. left. exact X.
  - rewrite (IH Hn2 Hin). rewrite (No el e0 y0); [reflexivity| |exact H].
    intros X. apply Hn1. rewrite X. apply in_map. apply in_combine_l in Hin. exact Hin.
Qed.

Lemma iter_succ_r {A} (g : A -> A) k : forall a, Nat.iter (S k) g a = Nat.iter k g (g a).
Proof. induction k as [|k IH]; intros a; [reflexivity|]. change (g (Nat.iter (S k) g a) = g (Nat.iter k g (g a))). rewrite IH. reflexivity. Qed.

Section Paths.
  Context {cell : Type} (M : mesh cell) (e : nat -> point) (opp : nat -> nat) (dt : R).
  Hypothesis Hwalls : only_walls M.

  Lemma step_walls el ev : hit_do_nothing el = false -> step M e opp dt el = Ok ev ->
    match ev with
    | Continue el' => hit_do_nothing el' = false /\ currentDirection el' = currentDirection el /\ dest el' = dest el
    | ContinueHit el' bi => hit_do_nothing el' = false /\ currentDirection el' = opp (currentDirection el) /\ dest el' = dest el /\
        currentCell el' = currentCell el /\ exists f, face_behind M (currentCell el) f = BounceBack bi
    | Found el' => currentDirection el' = currentDirection el /\ dest el' = dest el
    | Diagonal el' => dest el' = dest el
    | Hit _ _ => False
    end.
  Proof.
    intros H0. unfold step. cbn [lifeTimeCounter currentCell currentPoint departurePoint dest_index dest_direction currentDirection hit_do_nothing].
    destruct (Nat.ltb 50 _); [intros H; injection H as <-; reflexivity|].
    destruct (findFace M _ _ _) as [r| |]; cbn [obind]; try discriminate.
    destruct r as [k|]; [|intros H; injection H as <-; rewrite H0; split; reflexivity].
    assert (W := Hwalls (currentCell el) (cr_face k)).
    destruct (face_behind M _ _) as [c| |ac op|b|b|b] eqn:E; try discriminate; try (destruct W).
    - destruct (owned_or_ghost M c); [|discriminate]. intros H; injection H as <-. cbn. auto.
    - intros H; injection H as <-. cbn. auto.
    - intros H; injection H as <-. cbn. repeat split; auto. exists (cr_face k). exact E.
  Qed.

  Lemma step_cells cells el ev : closed_mesh M cells -> In (currentCell el) cells -> step M e opp dt el = Ok ev ->
    match ev with Continue el' | ContinueHit el' _ => In (currentCell el') cells | _ => True end.
  Proof.
    intros HC H0. unfold step. cbn [lifeTimeCounter currentCell currentPoint departurePoint dest_index dest_direction currentDirection hit_do_nothing].
    destruct (Nat.ltb 50 _); [intros H; injection H as <-; exact I|].
    destruct (findFace M _ _ _) as [r| |]; cbn [obind]; try discriminate.
    destruct r as [k|]; [|intros H; injection H as <-; exact I].
    assert (W := HC (currentCell el) (cr_face k) H0).
    destruct (face_behind M _ _) as [c| |ac op|b|b|b] eqn:E; try discriminate; try (intros H; injection H as <-; cbn [currentCell]; auto; fail).
    destruct (owned_or_ghost M c); [|discriminate]. intros H; injection H as <-. exact W.
  Qed.

  (** Hits, then found or dropped. *)
  Definition wall_hit (cells : list cell) (d : nat * nat) (ev : event cell) : Prop :=
    exists el bi, ev = ContinueHit el bi /\ dest el = d /\ In (currentCell el) cells /\ exists c f, face_behind M c f = BounceBack bi.
  Definition finish (d : nat * nat) (dir : nat) (ev : event cell) : Prop :=
    exists el, dest el = d /\ (ev = Found el /\ currentDirection el = dir \/ ev = Diagonal el).

  Lemma loop_shape cells fuel : closed_mesh M cells -> forall el l, hit_do_nothing el = false -> In (currentCell el) cells ->
    path_loop M e opp dt fuel [el] = Some (Ok l) ->
    exists hits last, l = hits ++ [last] /\ Forall (wall_hit cells (dest el)) hits /\
      finish (dest el) (Nat.iter (length hits) opp (currentDirection el)) last.
  Proof.
    intros HC. induction fuel as [|fuel IH]; intros el l H0 Hc H; [discriminate|]. cbn [path_loop] in H.
    destruct (step M e opp dt el) as [ev| |] eqn:S; try discriminate.
    assert (W := step_walls el ev H0 S). assert (C := step_cells cells el ev HC Hc S).
    assert (Nil : path_loop M e opp dt fuel [] = Some (Ok [])) by (destruct fuel; reflexivity).
    destruct ev as [el'|el' bi|el'|el'|el' bi].
    - destruct W as (W1 & W2 & W3). destruct (IH el' l W1 C H) as (hits & last & E & F & G). rewrite W2, W3 in *. exists hits, last. auto.
    - destruct W as (W1 & W2 & W3 & W4 & f & W5).
      destruct (path_loop M e opp dt fuel [el']) as [[x| |]|] eqn:E; cbn in H; try discriminate. injection H as <-.
      destruct (IH el' x W1 C E) as (hits & last & -> & F & G). exists (ContinueHit el' bi :: hits), last. split; [reflexivity|]. split.
      + constructor; [|rewrite <- W3; exact F]. exists el', bi. split; [reflexivity|]. split; [exact W3|]. split; [exact C|]. exists (currentCell el), f. exact W5.
      + cbn [length]. rewrite iter_succ_r, <- W2, <- W3. exact G.
    - rewrite Nil in H. cbn in H. injection H as <-. exists [], (Diagonal el'). split; [reflexivity|]. split; [constructor|]. exists el'. auto.
    - rewrite Nil in H. cbn in H. injection H as <-. exists [], (Found el'). destruct W as [W1 W2]. split; [reflexivity|]. split; [constructor|].
      exists el'. split; [exact W2|left; split; [reflexivity|exact W1]].
    - destruct W.
  Qed.
End Paths.

Section Uniform.
  Context {cell : Type} (M : mesh cell) (e : nat -> point) (w : nat -> R) (cs2 : R) (opp : nat -> nat) (dt : R)
          (n : nat) (node : nat -> point) (dofs : cell -> nat -> nat) (Q : nat) (shape : nat -> point -> R) (cells : list cell).
  Hypothesis Hwalls : only_walls M.
  Hypothesis Hclosed : closed_mesh M cells.
  Hypothesis Hopp : opposites Q opp.
  Hypothesis Hunity : partition_of_unity (dim M) n shape.
  Let dirs := List.seq 1 (Q - 1).
  Let q := trackers M e dt n node dofs dirs cells [].

  Definition good_hit (el : tracker cell) (h : hit cell) : Prop :=
    (hit_index h, hit_direction h) = dest el /\ In (hit_cell h) cells /\ exists c f, face_behind M c f = BounceBack (hit_boundary h).

  Lemma iter_opp a k : (1 <= a < Q)%nat -> (1 <= Nat.iter k opp a < Q)%nat.
  Proof. intros Ha. induction k as [|k IH]; [exact Ha|]. cbn [Nat.iter nat_rect]. apply (Hopp _ IH). Qed.

  Lemma tracker_result el x y : In el q -> outputs M e opp dt (event_entries M shape dofs n) el x ->
    outputs M e opp dt (event_hits M e dt) el y ->
    Forall (good_hit el) y /\
    ((forall F B, (forall a, (1 <= a < Q)%nat -> Rabs (F a) <= B) ->
       Rabs (apply_row x (fun b _ => F (S b)) (dest_direction el - 1) (dest_index el) - F (Nat.iter (length y) opp (dest_direction el))) <= INR n * (tol * B)) \/
     (exists l el', follow M e opp dt el = Ok l /\ In (Diagonal el') l) /\
     forall f, apply_row x f (dest_direction el - 1) (dest_index el) = f (dest_direction el - 1)%nat (dest_index el)).
  Proof.
    intros Hin (l & Hl & Hx) (l2 & Hl2 & Hy). rewrite Hl in Hl2. injection Hl2 as <-.
    assert (H0 := trackers_fresh _ _ _ _ _ _ _ _ _ _ Hin).
    destruct (trackers_origin M e dt n node dofs dirs cells [] el Hin) as (c & j & a & Hc & Hj & Ha & _ & El).
    assert (Hdn : hit_do_nothing el = false) by (rewrite El; reflexivity).
    assert (Hcc : In (currentCell el) cells) by (rewrite El; exact Hc).
    assert (Hcur : currentDirection el = dest_direction el) by (rewrite El; reflexivity).
    assert (Hr : (1 <= dest_direction el < Q)%nat) by (rewrite El; cbn [dest_direction]; apply in_seq in Ha; lia).
    assert (P := follow_some M e opp dt el H0). rewrite Hl in P.
    destruct (loop_shape M e opp dt Hwalls cells 51 Hclosed el l Hdn Hcc P) as (hits & last & -> & F & G).
    rewrite Hcur in G. clear P. apply collect_app_ok in Hx. destruct Hx as (x1 & x2 & Hx1 & Hx2 & ->).
    apply collect_app_ok in Hy. destruct Hy as (y1 & y2 & Hy1 & Hy2 & ->).
    assert (X1 : x1 = []).
    { clear -F Hx1. revert x1 Hx1. induction F as [|ev hits (el' & bi & -> & _) F IH]; intros x1 Hx1; cbn [collect event_entries obind] in Hx1.
      - injection Hx1 as <-. reflexivity.
      - destruct (collect (event_entries M shape dofs n) hits) as [z| |]; try discriminate. cbn [obind] in Hx1. injection Hx1 as <-.
        rewrite (IH z eq_refl). reflexivity. }
    assert (Y1 : length y1 = length hits /\ Forall (good_hit el) y1).
    { clear -F Hy1. revert y1 Hy1. induction F as [|ev hits (el' & bi & -> & Hd & Hcl & Hf) F IH]; intros y1 Hy1; cbn [collect event_hits obind] in Hy1.
      - injection Hy1 as <-. split; [reflexivity|constructor].
      - destruct (collect (event_hits M e dt) hits) as [z| |]; try discriminate. cbn [obind] in Hy1. injection Hy1 as <-.
        destruct (IH z eq_refl) as [A B]. split; [cbn [length app]; rewrite A; reflexivity|]. constructor; [|exact B].
        split; [exact Hd|]. split; [exact Hcl|exact Hf]. }
    destruct Y1 as [Y1 Y2]. subst x1. cbn [app].
    destruct G as (el' & Hd & [[-> Hdir]| ->]).
    - cbn [collect event_hits obind] in Hy2. injection Hy2 as <-. rewrite app_nil_r. split; [exact Y2|]. left. intros FF B HB.
      cbn [collect event_entries] in Hx2. unfold shapeValues in Hx2. destruct (to_unit M _ _) as [u|]; [|discriminate].
      destruct (all_inside (dim M) (snap_point u)) eqn:A; [|discriminate]. cbn [obind] in Hx2. injection Hx2 as <-. rewrite app_nil_r.
      apply all_inside_iff in A. unfold dest in Hd. injection Hd as Ei Ea. rewrite <- Ei, <- Ea. rewrite apply_row_entries.
      rewrite Y1, Ea, <- Hdir. set (v := FF (currentDirection el')).
      assert (Hrange : (1 <= currentDirection el' < Q)%nat) by (rewrite Hdir; apply iter_opp; exact Hr).
      replace (S (currentDirection el' - 1)) with (currentDirection el') by lia. fold v.
      assert (D := dropped_small n (fun k => shape k (snap_point u)) (fun _ => v) B). cbn beta in D.
      rewrite (sumf_scal_r n v), (Hunity _ A), Rmult_1_l in D. apply D. intros _ _. apply HB. exact Hrange.
    - cbn [collect event_hits obind] in Hy2. injection Hy2 as <-. rewrite app_nil_r. split; [exact Y2|]. right.
      split; [exists (hits ++ [Diagonal el']), el'; split; [exact Hl|apply in_or_app; right; left; reflexivity]|]. intros f.
      cbn [collect event_entries obind] in Hx2. injection Hx2 as <-. unfold dest in Hd. injection Hd as -> ->.
      unfold apply_row, entry_term. cbn [app fold_right]. rewrite !Nat.eqb_refl. cbn [andb]. ring.
  Qed.

  Lemma combine_in {A B} (P : A -> B -> Prop) l m a : Forall2 P l m -> In a l -> exists b, In (a, b) (combine l m) /\ P a b.
  Proof.
    induction 1 as [|x y l m H F IH]; intros Hin; [destruct Hin|]. cbn [combine]. destruct Hin as [<-|Hin]; [exists y; split; [left; reflexivity|exact H]|].
    destruct (IH Hin) as (b & Hb & Hp). exists b. split; [right; exact Hb|exact Hp].
  Qed.
  Lemma Forall2_impl_in {A B} (P P' : A -> B -> Prop) l m : (forall a b, In a l -> P a b -> P' a b) -> Forall2 P l m -> Forall2 P' l m.
  Proof. intros H F. induction F; constructor; [apply H; [left; reflexivity|assumption]|apply IHF; intros; apply H; [right; assumption|assumption]]. Qed.

  (** The assembled row and the hits of one destination. *)
  Lemma uniform_row z hs : assemble M e opp dt n node dofs Q shape cells = Some (Ok z) ->
    all_hits M e opp dt n node dofs Q cells = Some (Ok hs) ->
    (forall h, In h hs -> In (hit_cell h) cells /\ exists c f, face_behind M c f = BounceBack (hit_boundary h)) /\
    forall c j a, In c cells -> (j < n)%nat -> (1 <= a < Q)%nat ->
    (forall F B, (forall b, (1 <= b < Q)%nat -> Rabs (F b) <= B) ->
       Rabs (apply_row z (fun b _ => F (S b)) (a - 1) (dofs c j) - F (Nat.iter (length (hits_for a (dofs c j) hs)) opp a)) <= INR n * (tol * B)) \/
    ~ none_dropped M e opp dt Q n node cells /\
    forall f, apply_row z f (a - 1) (dofs c j) = f (a - 1)%nat (dofs c j).
  Proof.
    intros HA HH. unfold assemble in HA. unfold all_hits in HH. apply fill_ok in HA. apply fill_ok in HH.
    destruct HA as (xs & FA & ->). destruct HH as (ys & FH & ->). fold dirs q in FA, FH.
    assert (Key : forall el, In el q -> exists x y, In (el, x) (combine q xs) /\ In (el, y) (combine q ys) /\
      outputs M e opp dt (event_entries M shape dofs n) el x /\ outputs M e opp dt (event_hits M e dt) el y).
    { intros el Hel. destruct (combine_in _ _ _ _ FA Hel) as (x & Hx & Ox). destruct (combine_in _ _ _ _ FH Hel) as (y & Hy & Oy). exists x, y. auto. }
    assert (Good : Forall2 (fun el y => Forall (good_hit el) y) q ys).
    { revert FH. apply Forall2_impl_in. intros el y Hel Oy. destruct (Key el Hel) as (x & _ & _ & _ & Ox & _). exact (proj1 (tracker_result el x y Hel Ox Oy)). }
    split.
    - intros h Hh. apply in_concat in Hh. destruct Hh as (y & Hy & Hh). destruct (Forall2_in_r _ _ _ _ Good Hy) as (el & _ & G).
      rewrite Forall_forall in G. exact (proj2 (G h Hh)).
    - intros c j a Hc Hj Ha.
      destruct (trackers_complete M e dt n node dofs dirs cells [] c j a Hc Hj ltac:(apply in_seq; lia) ltac:(intros [])) as (el & Hel & Ed).
      destruct (Key el Hel) as (x & y & Hx & Hy & Ox & Oy). unfold dest in Ed. injection Ed as Ei Ea. rewrite <- Ea, <- Ei.
      assert (Hrow : forall f, apply_row (concat xs) f (dest_direction el - 1) (dest_index el) = apply_row x f (dest_direction el - 1) (dest_index el)).
      { intros f. apply (row_of_tracker xs q f el x); [| | |exact Hx].
        - revert FA. apply Forall2_impl_in. intros e1 x1 He1 O1. apply (entries_row M e opp dt n dofs shape e1 x1); [|exact O1].
          exact (trackers_fresh _ _ _ _ _ _ _ _ _ _ He1).
        - intros e1 He1. apply trackers_origin in He1. destruct He1 as (c' & j' & a' & _ & _ & Ha' & _ & ->). apply in_seq in Ha'. cbn [dest_direction]. lia.
        - apply trackers_nodup. apply seq_NoDup. }
      assert (Hhits : hits_for (dest_direction el) (dest_index el) (concat ys) = y).
      { apply (hits_of_tracker ys q el y); [|apply trackers_nodup; apply seq_NoDup|exact Hy].
        revert Good. apply Forall2_impl_in. intros e1 y1 _ G. revert G. apply Forall_impl. intros h G. exact (proj1 G). }
      rewrite Hhits. destruct (tracker_result el x y Hel Ox Oy) as [_ [T|[(l & el' & Hl & Hd) T]]].
      + left. intros F B HB. rewrite Hrow. apply T. exact HB.
      + right. split; [|intros f; rewrite Hrow; apply T]. intros N.
        destruct (trackers_origin M e dt n node dofs dirs cells [] el Hel) as (c' & j' & a' & Hc' & Hj' & Ha' & _ & El).
        apply in_seq in Ha'. apply (N c' (dofs c' j') j' a' l el' Hc' Hj' ltac:(lia)); [|exact Hd].
        assert (P := follow_some M e opp dt el (trackers_fresh _ _ _ _ _ _ _ _ _ _ Hel)). rewrite Hl in P. rewrite El in P. exact P.
  Qed.
End Uniform.

(** ** Uniform populations compatible with the walls *)
Lemma sum_over_const {A} (v : R) (l : list A) : sum_over (fun _ => v) l = INR (length l) * v.
Proof. induction l as [|a l IH]; [cbn; ring|]. change (v + sum_over (fun _ => v) l = INR (S (length l)) * v). rewrite IH, S_INR. ring. Qed.

Lemma uniform_stream {cell} (M : mesh cell) e w cs2 opp dt n node dofs Q shape cells same rebalance bc U F B m_time f' t' z hs :
  only_walls M -> closed_mesh M cells -> opposites Q opp -> partition_of_unity (dim M) n shape ->
  keeps_order rebalance -> decides same -> NoDup cells ->
  (forall c f b, face_behind M c f = BounceBack b -> bc b = VelocityBB (fun _ _ => U)) ->
  assemble M e opp dt n node dofs Q shape cells = Some (Ok z) -> all_hits M e opp dt n node dofs Q cells = Some (Ok hs) ->
  (forall a, (1 <= a < Q)%nat -> Rabs (F a) <= B) ->
  stream M e w cs2 opp dt bc z (hit_list M same rebalance hs) cells (fun a _ => F a, m_time) = Ok (f', t') ->
  forall a c j, (1 <= a < Q)%nat -> In c cells -> (j < n)%nat ->
    let k := length (hits_for a (dofs c j) hs) in
    Rabs (f' a (dofs c j) - (F (Nat.iter k opp a) + INR k * exchange (dim M) e w cs2 a U)) <= INR n * (tol * B) \/
    ~ none_dropped M e opp dt Q n node cells /\ f' a (dofs c j) = F a + INR k * exchange (dim M) e w cs2 a U.
Proof.
  intros Hw Hcl Hopp Hu Hreb Hs Hnd Hbc HA HH HB HS a c j Ha Hc Hj k.
  destruct (uniform_row M e opp dt n node dofs Q shape cells Hw Hcl Hopp Hu z hs HA HH) as [Hhits Hrow].
  unfold stream in HS. destruct (operate M e w cs2 opp bc m_time cells (hit_list M same rebalance hs) _) as [f1| |] eqn:HO; try discriminate.
  cbn [obind] in HS. injection HS as <- <-.
  assert (V := uniform_walls M e w cs2 opp same rebalance bc (fun _ _ _ => U) Hreb m_time cells hs (multiply z (fun a _ => F a)) f1 (fun _ _ => U) a (dofs c j) Hs Hnd
    (fun h Hh => proj1 (Hhits h Hh))). cbn beta in V.
  rewrite V; [|intros h Hh; destruct (Hhits h Hh) as (_ & c' & f & E); exact (Hbc c' f _ E)|reflexivity|exact HO]. clear V.
  rewrite sum_over_const. fold k. destruct a as [|b]; [lia|]. cbn [multiply].
  destruct (Hrow c j (S b) Hc Hj Ha) as [R1|[R1 R2]].
  - left. specialize (R1 F B HB). fold k in R1. replace (S b - 1)%nat with b in R1 by lia.
    match goal with |- Rabs (?x + ?y - (?u + ?y)) <= _ => replace (x + y - (u + y)) with (x - u) by ring end. exact R1.
  - right. split; [exact R1|]. specialize (R2 (fun c0 _ => F (S c0))). replace (S b - 1)%nat with b in R2 by lia. rewrite R2. reflexivity.
Qed.

Section Steady.
  Context {cell : Type} (M : mesh cell) (e : nat -> point) (w : nat -> R) (cs2 : R) (opp : nat -> nat) (dt : R)
          (n : nat) (node : nat -> point) (dofs : cell -> nat -> nat) (Q : nat) (shape : nat -> point -> R) (cells : list cell)
          (same : cell -> cell -> bool) (rebalance : hit_tree (cell := cell) -> hit_tree (cell := cell)) (bc : nat -> condition)
          (U : point) (F : nat -> R) (B m_time : R) (f' : populations) (t' : R) (z : list entry) (hs : list (hit cell)).

  Notation wall_setting := (wall_setting M e w cs2 opp dt n node dofs Q shape cells same rebalance bc U F B m_time f' t' z hs).

  Lemma steady_rest : wall_setting -> (forall a, (1 <= a < Q)%nat -> F (opp a) = F a /\ exchange (dim M) e w cs2 a U = 0) ->
    forall a c j, (1 <= a < Q)%nat -> In c cells -> (j < n)%nat -> Rabs (f' a (dofs c j) - F a) <= INR n * (tol * B).
  Proof.
    intros (H1 & H2 & H3 & H4 & H5 & H6 & H7 & H8 & H9 & H10 & H11 & H12) HF a c j Ha Hc Hj.
    assert (It : forall k, F (Nat.iter k opp a) = F a).
    { induction k as [|k IH]; [reflexivity|]. change (F (opp (Nat.iter k opp a)) = F a). rewrite <- IH. apply HF. apply (iter_opp opp Q H3). exact Ha. }
    destruct (uniform_stream M e w cs2 opp dt n node dofs Q shape cells same rebalance bc U F B m_time f' t' z hs
      H1 H2 H3 H4 H5 H6 H7 H8 H9 H10 H11 H12 a c j Ha Hc Hj) as [A|[_ A]]; rewrite (proj2 (HF a Ha)), Rmult_0_r, Rplus_0_r in A.
    - rewrite It in A. exact A.
    - rewrite A. replace (F a - F a) with 0 by ring. rewrite Rabs_R0. assert (P := H11 a Ha). assert (P' := Rabs_pos (F a)).
      apply Rmult_le_pos; [apply pos_INR|]. apply Rmult_le_pos; [unfold tol; lra|lra].
  Qed.

  Lemma steady_moving : wall_setting -> none_dropped M e opp dt Q n node cells ->
    (forall a, (1 <= a < Q)%nat -> F (opp a) + exchange (dim M) e w cs2 a U = F a) ->
    forall a c j, (1 <= a < Q)%nat -> In c cells -> (j < n)%nat -> (length (hits_for a (dofs c j) hs) <= 1)%nat ->
    Rabs (f' a (dofs c j) - F a) <= INR n * (tol * B).
  Proof.
    intros (H1 & H2 & H3 & H4 & H5 & H6 & H7 & H8 & H9 & H10 & H11 & H12) HN HF a c j Ha Hc Hj Hk.
    destruct (uniform_stream M e w cs2 opp dt n node dofs Q shape cells same rebalance bc U F B m_time f' t' z hs
      H1 H2 H3 H4 H5 H6 H7 H8 H9 H10 H11 H12 a c j Ha Hc Hj) as [A|[A _]]; [|contradiction].
    destruct (length (hits_for a (dofs c j) hs)) as [|[|k]] eqn:E; [| |lia]; cbn [Nat.iter nat_rect INR] in A.
    - rewrite Rmult_0_l, Rplus_0_r in A. exact A.
    - rewrite Rmult_1_l, (HF a Ha) in A. exact A.
  Qed.
End Steady.
