(** First-order bounce back. *)
From Coq Require Import Permutation.
From Verif Require Import Prelude BigSum ModelSemiLagrangian SpecSemiLagrangian ProofSemiLagrangian ProofSemiLagrangian2
  ProofSemiLagrangian3 ProofSemiLagrangian4 ModelWalls SpecWalls ProofWalls ProofWalls2 ProofWalls3.
Local Open Scope R_scope.

Section FirstOrder.
  Context {cell : Type} (M : mesh cell) (e : nat -> point) (w : nat -> R) (cs2 : R) (opp : nat -> nat) (dt : R)
    (same : cell -> cell -> bool) (rebalance : hit_tree (cell := cell) -> hit_tree (cell := cell)) (bc : nat -> condition).

  Definition reflect (f : populations) (h : hit cell) : populations :=
    set_pop f (hit_direction h) (hit_index h) (f (opp (hit_direction h)) (hit_index h)).

  Lemma apply_reflect x t hs : forall f, (forall h, In h hs -> bc (hit_boundary h) = FirstOrderBB) ->
    fold_left (apply_hit M e w cs2 opp bc x t) hs f = fold_left reflect hs f.
  Proof.
    induction hs as [|h hs IH]; intros f H; [reflexivity|]. cbn [fold_left]. unfold apply_hit at 2. rewrite (H h (or_introl eq_refl)).
    cbn [calculateBoundaryValues]. apply IH. intros h' Hh. apply H. right. exact Hh.
  Qed.

  Lemma operate_reflect t m cells : forall f f', operate M e w cs2 opp bc t cells m f = Ok f' ->
    (forall c h, In c cells -> In h (flat_map snd (elements (m c))) -> bc (hit_boundary h) = FirstOrderBB) ->
    f' = fold_left reflect (flat_map (fun c => flat_map snd (elements (m c))) cells) f.
  Proof.
    induction cells as [|c cells IH]; intros f f' H Hbc; cbn [operate] in H; [injection H as <-; reflexivity|].
    destruct (operate_cell M e w cs2 opp bc t c (m c) f) as [f1| |] eqn:E; try discriminate. cbn [obind] in H.
    cbn [flat_map]. rewrite fold_left_app. rewrite (IH f1 f' H) by (intros c' h Hc; apply Hbc; right; exact Hc). f_equal.
    unfold operate_cell in E. destruct (quadrature M c (elements (m c))) as [q| |] eqn:Eq; try discriminate. cbn [obind] in E. injection E as <-.
    apply quadrature_ok in Eq. assert (Hc : forall h, In h (flat_map snd (elements (m c))) -> bc (hit_boundary h) = FirstOrderBB)
      by (intros h; apply Hbc; left; reflexivity).
    clear -Eq Hc. revert f. induction Eq as [|[x hs] [u hs'] l q [G E] Q IH]; intros f; [reflexivity|]. cbn [fst snd] in *. subst hs'.
    cbn [fold_left flat_map snd fst]. rewrite fold_left_app, <- IH by (intros h Hh; apply Hc; cbn [flat_map]; apply in_or_app; right; exact Hh).
    f_equal. apply apply_reflect. intros h Hh. apply Hc. cbn [flat_map snd]. apply in_or_app. left. exact Hh.
  Qed.

  Lemma reflect_all a i hs : forall f, (forall h, In h hs -> addressed (opp a) i h = false) ->
    fold_left reflect hs f (opp a) i = f (opp a) i /\
    fold_left reflect hs f a i = if existsb (addressed a i) hs then f (opp a) i else f a i.
  Proof.
    induction hs as [|h hs IH]; intros f H; [split; reflexivity|]. cbn [fold_left existsb].
    destruct (IH (reflect f h)) as [A B]; [intros h' Hh; apply H; right; exact Hh|]. rewrite A, B. clear A B IH.
    assert (N := H h (or_introl eq_refl)). unfold reflect, set_pop, addressed in *.
    rewrite (Nat.eqb_sym (opp a)), (Nat.eqb_sym i), N. split; [reflexivity|].
    rewrite (Nat.eqb_sym a). destruct (Nat.eqb_spec (hit_direction h) a) as [E1|]; cbn [andb orb]; [|reflexivity].
    destruct (Nat.eqb_spec (hit_index h) i) as [E2|]; cbn [orb]; [|reflexivity]. subst a i.
    destruct (existsb _ hs); reflexivity.
  Qed.

  Hypothesis Hreb : keeps_order rebalance.

  Lemma existsb_perm {A} (p : A -> bool) l m : Permutation l m -> existsb p l = existsb p m.
  Proof.
    induction 1; cbn [existsb]; try congruence. destruct (p x), (p y); reflexivity.
  Qed.

  (** The populations after the boundary conditions, if the opposite population is not hit. *)
  Lemma first_order t cells hs f f' a i : decides same -> NoDup cells -> (forall h, In h hs -> In (hit_cell h) cells) ->
    (forall h, In h hs -> bc (hit_boundary h) = FirstOrderBB) ->
    operate M e w cs2 opp bc t cells (hit_list M same rebalance hs) f = Ok f' -> hits_for (opp a) i hs = [] ->
    f' a i = (match hits_for a i hs with [] => f a i | _ => f (opp a) i end) /\ f' (opp a) i = f (opp a) i.
  Proof.
    intros Hs Hn Hc Hbc H Hno. assert (P := hit_list_all M same rebalance Hreb hs cells Hs Hn Hc).
    assert (E : f' = fold_left reflect (flat_map (fun c => flat_map snd (elements (hit_list M same rebalance hs c))) cells) f).
    { apply (operate_reflect t _ cells f f' H). intros c h Hcc Hh. apply Hbc. apply (Permutation_in _ P). apply in_flat_map. exists c. auto. }
    set (L := flat_map (fun c => flat_map snd (elements (hit_list M same rebalance hs c))) cells) in *.
    assert (No : forall h, In h L -> addressed (opp a) i h = false).
    { intros h Hh. apply (Permutation_in _ P) in Hh. destruct (addressed (opp a) i h) eqn:X; [|reflexivity].
      exfalso. assert (Y : In h (hits_for (opp a) i hs)) by (apply filter_In; auto). rewrite Hno in Y. destruct Y. }
    destruct (reflect_all a i L f No) as [A B]. rewrite E. split; [|exact A]. rewrite B, (existsb_perm _ _ _ P).
    unfold hits_for. clear. induction hs as [|h hs IH]; [reflexivity|]. cbn [existsb List.filter]. destruct (addressed a i h); [reflexivity|exact IH].
  Qed.
End FirstOrder.

Section Rest.
  Context {cell : Type} (M : mesh cell) (e : nat -> point) (w : nat -> R) (cs2 : R) (opp : nat -> nat) (dt : R)
          (n : nat) (node : nat -> point) (dofs : cell -> nat -> nat) (Q : nat) (shape : nat -> point -> R) (cells : list cell).
  Hypothesis Hothers : only_hits M.
  Hypothesis Hclosed : closed_mesh M cells.
  Hypothesis Hunity : partition_of_unity (dim M) n shape.
  Let dirs := List.seq 1 (Q - 1).
  Let q := trackers M e dt n node dofs dirs cells [].

  Lemma step_others el ev : hit_do_nothing el = false -> In (currentCell el) cells -> step M e opp dt el = Ok ev ->
    match ev with
    | Continue el' => hit_do_nothing el' = false /\ currentDirection el' = currentDirection el /\ dest el' = dest el /\ In (currentCell el') cells
    | ContinueHit _ _ => False
    | Found el' => currentDirection el' = currentDirection el /\ dest el' = dest el
    | Diagonal el' => dest el' = dest el
    | Hit el' bi => dest el' = dest el /\ In (currentCell el') cells /\ exists c f, face_behind M c f = OtherBoundary bi
    end.
  Proof.
    intros H0 Hc. unfold step. cbn [lifeTimeCounter currentCell currentPoint departurePoint dest_index dest_direction currentDirection hit_do_nothing].
    destruct (Nat.ltb 50 _); [intros H; injection H as <-; reflexivity|].
    destruct (findFace M _ _ _) as [r| |]; cbn [obind]; try discriminate.
    destruct r as [k|]; [|intros H; injection H as <-; rewrite H0; split; reflexivity].
    assert (W := Hothers (currentCell el) (cr_face k)). assert (W2 := Hclosed (currentCell el) (cr_face k) Hc).
    destruct (face_behind M _ _) as [c| |ac op|b|b|b] eqn:E; try discriminate; try (destruct W; fail).
    - destruct (owned_or_ghost M c); [|discriminate]. intros H; injection H as <-. cbn. auto.
    - intros H; injection H as <-. cbn. auto.
    - intros H; injection H as <-. cbn. repeat split; auto. exists (currentCell el), (cr_face k). exact E.
  Qed.

  Lemma loop_others fuel : forall el l, hit_do_nothing el = false -> In (currentCell el) cells ->
    path_loop M e opp dt fuel [el] = Some (Ok l) -> exists el', dest el' = dest el /\
      (l = [Found el'] /\ currentDirection el' = currentDirection el \/ l = [Diagonal el'] \/
       exists bi, l = [Hit el' bi] /\ In (currentCell el') cells /\ exists c f, face_behind M c f = OtherBoundary bi).
  Proof.
    induction fuel as [|fuel IH]; intros el l H0 Hc H; [discriminate|]. cbn [path_loop] in H.
    destruct (step M e opp dt el) as [ev| |] eqn:S; try discriminate.
    assert (W := step_others el ev H0 Hc S).
    assert (Nil : path_loop M e opp dt fuel [] = Some (Ok [])) by (destruct fuel; reflexivity).
    destruct ev as [el'|el' bi|el'|el'|el' bi].
    - destruct W as (W1 & W2 & W3 & W4). destruct (IH el' l W1 W4 H) as (el2 & E & F). rewrite W2, W3 in *. exists el2. auto.
    - destruct W.
    - rewrite Nil in H. cbn in H. injection H as <-. exists el'. auto.
    - rewrite Nil in H. cbn in H. injection H as <-. exists el'. destruct W as [W1 W2]. auto.
    - rewrite Nil in H. cbn in H. injection H as <-. exists el'. destruct W as (W1 & W2 & W3). split; [exact W1|]. right. right. exists bi. auto.
  Qed.

  Definition other_hit (el : tracker cell) (h : hit cell) : Prop :=
    (hit_index h, hit_direction h) = dest el /\ In (hit_cell h) cells /\ exists c f, face_behind M c f = OtherBoundary (hit_boundary h).

  Lemma other_result el x y : In el q -> outputs M e opp dt (event_entries M shape dofs n) el x ->
    outputs M e opp dt (event_hits M e dt) el y ->
    Forall (other_hit el) y /\
    (y = [] -> forall F B, (forall a, (1 <= a < Q)%nat -> Rabs (F a) <= B) ->
       Rabs (apply_row x (fun b _ => F (S b)) (dest_direction el - 1) (dest_index el) - F (dest_direction el)) <= INR n * (tol * B)) /\
    (y <> [] -> x = []).
  Proof.
    intros Hin (l & Hl & Hx) (l2 & Hl2 & Hy). rewrite Hl in Hl2. injection Hl2 as <-.
    assert (H0 := trackers_fresh _ _ _ _ _ _ _ _ _ _ Hin).
    destruct (trackers_origin M e dt n node dofs dirs cells [] el Hin) as (c & j & a & Hc & Hj & Ha & _ & El).
    assert (Hdn : hit_do_nothing el = false) by (rewrite El; reflexivity).
    assert (Hcc : In (currentCell el) cells) by (rewrite El; exact Hc).
    assert (Hcur : currentDirection el = dest_direction el) by (rewrite El; reflexivity).
    assert (Hr : (1 <= dest_direction el < Q)%nat) by (rewrite El; cbn [dest_direction]; apply in_seq in Ha; lia).
    assert (P := follow_some M e opp dt el H0). rewrite Hl in P.
    destruct (loop_others 51 el l Hdn Hcc P) as (el' & Hd & Hlast). rewrite Hcur in Hlast. clear P.
    destruct Hlast as [[-> Hdir]|[->|(bi & -> & Hcl & Hf)]].
    - cbn [collect event_hits obind] in Hy. injection Hy as <-. split; [constructor|]. split; [|intros X; contradiction]. intros _ FF B HB.
      cbn [collect event_entries] in Hx. unfold shapeValues in Hx. destruct (to_unit M _ _) as [u|]; [|discriminate].
      destruct (all_inside (dim M) (snap_point u)) eqn:A; [|discriminate]. cbn [obind] in Hx. injection Hx as <-. rewrite app_nil_r.
      apply all_inside_iff in A. unfold dest in Hd. injection Hd as Ei Ea. rewrite <- Ei, <- Ea. rewrite apply_row_entries.
      rewrite Ea, <- Hdir. set (v := FF (currentDirection el')).
      replace (S (currentDirection el' - 1)) with (currentDirection el') by (rewrite Hdir; lia). fold v.
      assert (D := dropped_small n (fun k => shape k (snap_point u)) (fun _ => v) B). cbn beta in D.
      rewrite (sumf_scal_r n v), (Hunity _ A), Rmult_1_l in D. apply D. intros _ _. unfold v. rewrite Hdir. apply HB. exact Hr.
    - cbn [collect event_hits obind] in Hy. injection Hy as <-. split; [constructor|]. split; [|intros X; contradiction]. intros _ FF B HB.
      cbn [collect event_entries obind] in Hx. injection Hx as <-. unfold dest in Hd. injection Hd as -> ->.
      unfold apply_row, entry_term. cbn [app fold_right]. rewrite !Nat.eqb_refl. cbn [andb].
      replace (S (dest_direction el - 1)) with (dest_direction el) by lia.
      replace (1 * FF (dest_direction el) + 0 - FF (dest_direction el)) with 0 by ring. rewrite Rabs_R0.
      assert (X := HB (dest_direction el) Hr). assert (X' := Rabs_pos (FF (dest_direction el))).
      apply Rmult_le_pos; [apply pos_INR|]. apply Rmult_le_pos; [unfold tol; lra|lra].
    - cbn [collect event_hits obind] in Hy. injection Hy as <-. cbn [collect event_entries obind] in Hx. injection Hx as <-.
      split; [|split; [discriminate|reflexivity]]. constructor; [|constructor]. split; [exact Hd|]. split; [exact Hcl|exact Hf].
  Qed.

  Lemma other_row z hs : assemble M e opp dt n node dofs Q shape cells = Some (Ok z) ->
    all_hits M e opp dt n node dofs Q cells = Some (Ok hs) ->
    (forall h, In h hs -> In (hit_cell h) cells /\ exists c f, face_behind M c f = OtherBoundary (hit_boundary h)) /\
    forall c j a, In c cells -> (j < n)%nat -> (1 <= a < Q)%nat ->
    (hits_for a (dofs c j) hs = [] -> forall F B, (forall b, (1 <= b < Q)%nat -> Rabs (F b) <= B) ->
       Rabs (apply_row z (fun b _ => F (S b)) (a - 1) (dofs c j) - F a) <= INR n * (tol * B)) /\
    (hits_for a (dofs c j) hs <> [] -> forall f, apply_row z f (a - 1) (dofs c j) = 0).
  Proof.
    intros HA HH. unfold assemble in HA. unfold all_hits in HH. apply fill_ok in HA. apply fill_ok in HH.
    destruct HA as (xs & FA & ->). destruct HH as (ys & FH & ->). fold dirs q in FA, FH.
    assert (Key : forall el, In el q -> exists x y, In (el, x) (combine q xs) /\ In (el, y) (combine q ys) /\
      outputs M e opp dt (event_entries M shape dofs n) el x /\ outputs M e opp dt (event_hits M e dt) el y).
    { intros el Hel. destruct (combine_in _ _ _ _ FA Hel) as (x & Hx & Ox). destruct (combine_in _ _ _ _ FH Hel) as (y & Hy & Oy). exists x, y. auto. }
    assert (Good : Forall2 (fun el y => Forall (other_hit el) y) q ys).
    { revert FH. apply Forall2_impl_in. intros el y Hel Oy. destruct (Key el Hel) as (x & _ & _ & _ & Ox & _). exact (proj1 (other_result el x y Hel Ox Oy)). }
    split.
    - intros h Hh. apply in_concat in Hh. destruct Hh as (y & Hy & Hh). destruct (Forall2_in_r _ _ _ _ Good Hy) as (el & _ & G).
      rewrite Forall_forall in G. exact (proj2 (G h Hh)).
    - intros c j a Hc Hj Ha.
      destruct (trackers_complete M e dt n node dofs dirs cells [] c j a Hc Hj ltac:(apply in_seq; lia) ltac:(intros [])) as (el & Hel & Ed).
      destruct (Key el Hel) as (x & y & Hx & Hy & Ox & Oy). unfold dest in Ed. injection Ed as Ei Ea. rewrite <- Ea, <- Ei.
      assert (Hrow : forall f, apply_row (concat xs) f (dest_direction el - 1) (dest_index el) = apply_row x f (dest_direction el - 1) (dest_index el)).
      { intros f. apply (row_of_tracker xs q f el x); [| | |exact Hx].
        - revert FA. apply Forall2_impl_in. intros e1 x1 He1 O1. apply (entries_row M e opp dt n dofs shape e1 x1); [|exact O1].
          exact (trackers_fresh _ _ _ _ _ _ _ _ _ _ He1).
        - intros e1 He1. apply trackers_origin in He1. destruct He1 as (c' & j' & a' & _ & _ & Ha' & _ & ->). apply in_seq in Ha'. cbn [dest_direction]. lia.
        - apply trackers_nodup. apply seq_NoDup. }
      assert (Hhits : hits_for (dest_direction el) (dest_index el) (concat ys) = y).
      { apply (hits_of_tracker ys q el y); [|apply trackers_nodup; apply seq_NoDup|exact Hy].
        revert Good. apply Forall2_impl_in. intros e1 y1 _ G. revert G. apply Forall_impl. intros h G. exact (proj1 G). }
      rewrite Hhits. destruct (other_result el x y Hel Ox Oy) as (_ & T1 & T2). split.
      + intros E F B HB. rewrite Hrow. apply T1; assumption.
      + intros E f. rewrite Hrow, (T2 E). reflexivity.
  Qed.

  (** Uniform populations at rest. *)
  Lemma first_order_rest same rebalance bc F B m_time f' t' z hs :
    opposites Q opp -> keeps_order rebalance -> decides same -> NoDup cells ->
    (forall c f b, face_behind M c f = OtherBoundary b -> bc b = FirstOrderBB) ->
    assemble M e opp dt n node dofs Q shape cells = Some (Ok z) -> all_hits M e opp dt n node dofs Q cells = Some (Ok hs) ->
    (forall a, (1 <= a < Q)%nat -> Rabs (F a) <= B /\ F (opp a) = F a) ->
    stream M e w cs2 opp dt bc z (hit_list M same rebalance hs) cells (fun a _ => F a, m_time) = Ok (f', t') ->
    forall a c j, (1 <= a < Q)%nat -> In c cells -> (j < n)%nat -> hits_for (opp a) (dofs c j) hs = [] ->
      Rabs (f' a (dofs c j) - F a) <= INR n * (tol * B).
  Proof.
    intros Hopp Hreb Hs Hnd Hbc HA HH HF HS a c j Ha Hc Hj Hno.
    destruct (other_row z hs HA HH) as [Hhits Hrow].
    unfold stream in HS. destruct (operate M e w cs2 opp bc m_time cells (hit_list M same rebalance hs) _) as [f1| |] eqn:HO; try discriminate.
    cbn [obind] in HS. injection HS as <- <-.
    destruct (first_order M e w cs2 opp same rebalance bc Hreb m_time cells hs _ f1 a (dofs c j) Hs Hnd (fun h Hh => proj1 (Hhits h Hh))
      (fun h Hh => let '(conj _ (ex_intro _ c' (ex_intro _ f E))) := Hhits h Hh in Hbc c' f _ E) HO Hno) as [V _].
    rewrite V. clear V. destruct (Hopp a Ha) as [Ho _].
    assert (X : forall b, (1 <= b < Q)%nat -> hits_for b (dofs c j) hs = [] ->
      Rabs (multiply z (fun a _ => F a) b (dofs c j) - F b) <= INR n * (tol * B)).
    { intros b Hb E. destruct (Hrow c j b Hc Hj Hb) as [R1 _]. specialize (R1 E F B (fun b' Hb' => proj1 (HF b' Hb'))).
      destruct b as [|b]; [lia|]. cbn [multiply]. replace (S b - 1)%nat with b in R1 by lia. exact R1. }
    destruct (hits_for a (dofs c j) hs) as [|h0 r0] eqn:Eh; [exact (X a Ha Eh)|].
    rewrite <- (proj2 (HF a Ha)). exact (X (opp a) Ho Hno).
  Qed.

  (** Both opposite populations hit: both vanish. *)
  Lemma first_order_both same rebalance bc f m_time f' t' z hs :
    opposites Q opp -> keeps_order rebalance -> decides same -> NoDup cells ->
    (forall c f b, face_behind M c f = OtherBoundary b -> bc b = FirstOrderBB) ->
    assemble M e opp dt n node dofs Q shape cells = Some (Ok z) -> all_hits M e opp dt n node dofs Q cells = Some (Ok hs) ->
    stream M e w cs2 opp dt bc z (hit_list M same rebalance hs) cells (f, m_time) = Ok (f', t') ->
    forall a c j, (1 <= a < Q)%nat -> In c cells -> (j < n)%nat -> hits_for a (dofs c j) hs <> [] -> hits_for (opp a) (dofs c j) hs <> [] ->
      f' a (dofs c j) = 0.
  Proof.
    intros Hopp Hreb Hs Hnd Hbc HA HH HS a c j Ha Hc Hj Hb1 Hb2.
    destruct (other_row z hs HA HH) as [Hhits Hrow].
    unfold stream in HS. destruct (operate M e w cs2 opp bc m_time cells (hit_list M same rebalance hs) _) as [f1| |] eqn:HO; try discriminate.
    cbn [obind] in HS. injection HS as <- <-.
    assert (P := hit_list_all M same rebalance Hreb hs cells Hs Hnd (fun h Hh => proj1 (Hhits h Hh))).
    rewrite (operate_reflect M e w cs2 opp bc m_time _ cells _ f1 HO).
    2:{ intros c' h Hcc Hh. assert (Hin : In h hs) by (apply (Permutation_in _ P); apply in_flat_map; exists c'; auto).
        destruct (Hhits h Hin) as (_ & c2 & f2 & E). exact (Hbc c2 f2 _ E). }
    destruct (Hopp a Ha) as [Ho Hoo].
    assert (Z : forall b, (1 <= b < Q)%nat -> hits_for b (dofs c j) hs <> [] -> multiply z f b (dofs c j) = 0).
    { intros b Hb E. destruct (Hrow c j b Hc Hj Hb) as [_ R2]. destruct b as [|b]; [lia|]. cbn [multiply]. specialize (R2 E (fun c0 j0 => f (S c0) j0)).
      replace (S b - 1)%nat with b in R2 by lia. exact R2. }
    assert (Inv : forall (L : list (hit cell)) g, g a (dofs c j) = 0 -> g (opp a) (dofs c j) = 0 -> fold_left (reflect opp) L g a (dofs c j) = 0).
    { induction L as [|h L IH]; intros g G1 G2; [exact G1|]. cbn [fold_left]. apply IH; unfold reflect, set_pop.
      - destruct (Nat.eqb_spec a (hit_direction h)) as [<-|]; cbn [andb]; [|exact G1].
        destruct (Nat.eqb_spec (dofs c j) (hit_index h)) as [<-|]; [exact G2|exact G1].
      - destruct (Nat.eqb_spec (opp a) (hit_direction h)) as [<-|]; cbn [andb]; [|exact G2].
        destruct (Nat.eqb_spec (dofs c j) (hit_index h)) as [<-|]; [rewrite Hoo; exact G1|exact G2]. }
    apply Inv; apply Z; assumption.
  Qed.
End Rest.
