(** Paths that reach the limit of crossings; first-order bounce-back in a corner. *)
From Coq Require Import Permutation.
From Verif Require Import Prelude BigSum ModelStencils ModelSemiLagrangian SpecSemiLagrangian ProofSemiLagrangian ProofSemiLagrangian2
  ProofSemiLagrangian3 ProofSemiLagrangian4 ProofSemiLagrangian5 ModelWalls SpecWalls ProofWalls ProofWalls2 ProofWalls3 ProofWalls4 ProofWalls5
  ProofWalls6 ProofWalls7 ProofWalls8 ProofWalls10.
Local Open Scope R_scope.

Section Dropped.
  Context {cell : Type} (M : mesh cell) (e : nat -> point) (w : nat -> R) (cs2 : R) (opp : nat -> nat) (dt : R)
          (n : nat) (node : nat -> point) (dofs : cell -> nat -> nat) (Q : nat) (shape : nat -> point -> R) (cells : list cell).
  Hypothesis Hwalls : only_walls M.
  Hypothesis Hclosed : closed_mesh M cells.
  Let dirs := List.seq 1 (Q - 1).
  Let q := trackers M e dt n node dofs dirs cells [].

  Lemma dropped_row z a c j : assemble M e opp dt n node dofs Q shape cells = Some (Ok z) ->
    In c cells -> (j < n)%nat -> (1 <= a < Q)%nat -> reaches_limit M e opp dt n node dofs cells a (dofs c j) ->
    forall f, apply_row z f (a - 1) (dofs c j) = f (a - 1)%nat (dofs c j).
  Proof.
    intros HA Hc Hj Ha Hlim f. unfold assemble in HA. apply fill_ok in HA. destruct HA as (xs & FA & ->). fold dirs q in FA.
    destruct (trackers_complete M e dt n node dofs dirs cells [] c j a Hc Hj ltac:(apply in_seq; lia) ltac:(intros [])) as (el & Hel & Ed).
    destruct (combine_in _ _ _ _ FA Hel) as (x & Hx & (l & Hl & Hxl)). unfold dest in Ed. injection Ed as Ei Ea. rewrite <- Ea, <- Ei.
    rewrite (row_of_tracker xs q f el x); [| | |apply trackers_nodup; apply seq_NoDup|exact Hx].
    - destruct (trackers_origin M e dt n node dofs dirs cells [] el Hel) as (c' & j' & a' & Hc' & Hj' & Ha' & _ & El).
      assert (P := follow_some M e opp dt el (trackers_fresh _ _ _ _ _ _ _ _ _ _ Hel)). rewrite Hl in P.
      destruct (loop_shape M e opp dt Hwalls cells 51 Hclosed el l ltac:(rewrite El; reflexivity) ltac:(rewrite El; exact Hc') P) as (hits & last & -> & F & G).
      assert (Eij : dofs c' j' = dofs c j) by (rewrite <- Ei, El; reflexivity).
      destruct (Hlim c' j' Hc' Hj' Eij) as (l' & el' & P' & Hd).
      rewrite El in P, Ea. cbn [dest_direction] in Ea. subst a'.
      assert (E : l' = hits ++ [last]) by (unfold departs in P'; unfold minus_dtealpha in P; rewrite Eij in P; rewrite P in P'; injection P' as <-; reflexivity). subst l'.
      apply collect_app_ok in Hxl. destruct Hxl as (x1 & x2 & Hx1 & Hx2 & ->).
      assert (X1 : x1 = []).
      { clear -F Hx1. revert x1 Hx1. induction F as [|ev hits (e0 & bi & -> & _) F IH]; intros x1 Hx1; cbn [collect event_entries obind] in Hx1.
        - injection Hx1 as <-. reflexivity.
        - destruct (collect (event_entries M shape dofs n) hits) as [z| |]; try discriminate. cbn [obind] in Hx1. injection Hx1 as <-.
          rewrite (IH z eq_refl). reflexivity. }
      subst x1. cbn [app]. apply in_app_or in Hd. destruct Hd as [Hd|[Hd|[]]].
      + rewrite Forall_forall in F. destruct (F _ Hd) as (e0 & bi & X & _). discriminate.
      + subst last. destruct G as (e0 & D & [[X _]|X]); [discriminate|]. injection X as ->.
        cbn [collect event_entries obind] in Hx2. injection Hx2 as <-. unfold dest in D. injection D as -> ->.
        unfold apply_row, entry_term. cbn [app fold_right]. rewrite !Nat.eqb_refl. cbn [andb]. ring.
    - revert FA. apply Forall2_impl_in. intros e1 x1 He1 O1. apply (entries_row M e opp dt n dofs shape e1 x1); [|exact O1].
      exact (trackers_fresh _ _ _ _ _ _ _ _ _ _ He1).
    - intros e1 He1. apply trackers_origin in He1. destruct He1 as (c' & j' & a' & _ & _ & Ha' & _ & ->). apply in_seq in Ha'. cbn [dest_direction]. lia.
  Qed.

  (** Walls at rest (or moving perpendicular to the direction). *)
  Lemma dropped_kept same rebalance bc vel f m_time f' t' z hs a c j : opposites Q opp -> partition_of_unity (dim M) n shape ->
    keeps_order rebalance -> decides same -> NoDup cells ->
    (forall c f b, face_behind M c f = BounceBack b -> bc b = VelocityBB (vel b)) ->
    (forall b t x, dot (dim M) (vel b t x) (e a) = 0) ->
    assemble M e opp dt n node dofs Q shape cells = Some (Ok z) -> all_hits M e opp dt n node dofs Q cells = Some (Ok hs) ->
    stream M e w cs2 opp dt bc z (hit_list M same rebalance hs) cells (f, m_time) = Ok (f', t') ->
    In c cells -> (j < n)%nat -> (1 <= a < Q)%nat -> reaches_limit M e opp dt n node dofs cells a (dofs c j) ->
    f' a (dofs c j) = f a (dofs c j).
  Proof.
    intros Hopp Hu Hreb Hs Hnd Hbc Hrest HA HH HS Hc Hj Ha Hlim.
    destruct (uniform_row M e opp dt n node dofs Q shape cells Hwalls Hclosed Hopp Hu z hs HA HH) as [Hhits _].
    unfold stream in HS. destruct (operate M e w cs2 opp bc m_time cells (hit_list M same rebalance hs) _) as [f1| |] eqn:HO; try discriminate.
    cbn [obind] in HS. injection HS as <- <-.
    assert (P := hit_list_all M same rebalance Hreb hs cells Hs Hnd (fun h Hh => proj1 (Hhits h Hh))).
    rewrite (operate_value M e w cs2 opp bc vel m_time _ (fun _ => 0) a (dofs c j) cells _ f1 HO).
    - rewrite sum_over_const, Rmult_0_r, Rplus_0_r. destruct a as [|b]; [lia|]. cbn [multiply].
      assert (R0 := dropped_row z (S b) c j HA Hc Hj Ha Hlim (fun c0 j0 => f (S c0) j0)). replace (S b - 1)%nat with b in R0 by lia. exact R0.
    - intros c0 h Hc0 Hh. assert (Hin : In h hs) by (apply (Permutation_in _ P); apply in_flat_map; exists c0; auto).
      destruct (Hhits h Hin) as (_ & c1 & f0 & E). exact (Hbc _ _ _ E).
    - intros c0 k l h u _ _ _ _. unfold contribution. destruct (addressed a (dofs c j) h); [|reflexivity].
      unfold exchange. rewrite Hrest. unfold Rdiv. ring.
  Qed.
End Dropped.

(** ** The moving wall acts 25 times *)
Definition lid (b : nat) : condition := VelocityBB (fun _ _ => if Nat.eqb b 2 then drift else fun _ => 0).
Lemma sum_over_count {A} (p : A -> bool) (v : R) (l : list A) : sum_over (fun x => if p x then v else 0) l = INR (length (List.filter p l)) * v.
Proof.
  induction l as [|x l IH]; [cbn; ring|]. cbn [List.filter]. change (sum_over ?g (x :: l)) with (g x + sum_over g l). rewrite IH. destruct (p x); [|ring].
  change (length (x :: List.filter p l)) with (S (length (List.filter p l))). rewrite S_INR. ring.
Qed.
Lemma corner_getPoint kind (h : hit unit) : hit_point h 0%nat = 0 -> hit_point h 1%nat = 0 -> exists u, getPoint (cavity kind) tt (hit_point h) = Ok u.
Proof.
  intros H0 H1. unfold getPoint. cbn [to_unit cavity dim].
  assert (I : all_inside 2 (snap_point (hit_point h)) = true).
  { apply all_inside_iff. intros i Hi. unfold snap_point. destruct i as [|[|i]]; [| |lia]; rewrite ?H0, ?H1, snap_zero; lra. }
  rewrite I. eexists. reflexivity.
Qed.

Lemma limit_refuted : exists f' z hs,
  assemble K4 e9 opp9 (1 / 2) 1 corner_node dofs1 9 one_shape [tt] = Some (Ok z) /\
  all_hits K4 e9 opp9 (1 / 2) 1 corner_node dofs1 9 [tt] = Some (Ok hs) /\
  reaches_limit K4 e9 opp9 (1 / 2) 1 corner_node dofs1 [tt] 6 0 /\
  stream K4 e9 w9 cs9 opp9 (1 / 2) lid z (hit_list K4 same1 keep1 hs) [tt] (fun a _ => w9 a, 0) = Ok (f', 0 + 1 / 2) /\
  f' 6%nat 0%nat < 0 < w9 6.
Proof.
  destruct (one_cell K4 opp9 e9 (1 / 2) 9 corner_node one_shape corner_hits) as (z & hs & ys & HA & HH & Ehs & F & Hfor & Hdir).
  { intros a Ha. destruct (corner_path a Ha) as (l & x & y & H1 & H2 & H3 & H4 & H5). exists l, x, y. auto. }
  assert (Hpt : forall h, In h hs -> hit_point h 0%nat = 0 /\ hit_point h 1%nat = 0).
  { intros h Hh. rewrite Ehs in Hh. apply in_concat in Hh. destruct Hh as (y & Hy & Hh). destruct (Forall2_in_r _ _ _ _ F Hy) as (a & _ & Hf & _).
    rewrite Forall_forall in Hf. exact (proj2 (Hf h Hh)). }
  assert (Hlim : reaches_limit K4 e9 opp9 (1 / 2) 1 corner_node dofs1 [tt] 6 0).
  { intros [] j _ Hj ->. destruct (pingpong 50 _ 6 ltac:(lia) (corner_start walls4 0 6) (or_introl eq_refl) eq_refl) as (l & _ & el' & P & _ & _ & D & _).
    exists l, el'. split; [exact P|exact D]. }
  destruct (operate_total K4 e9 w9 cs9 opp9 same1 keep1 lid keep1_ok 0 hs [tt] (multiply z (fun a _ => w9 a))) as [f' HO].
  { intros [] h Hh. destruct (Hpt h Hh) as [P0 P1]. exact (corner_getPoint walls4 h P0 P1). }
  exists f', z, hs. split; [exact HA|]. split; [exact HH|]. split; [exact Hlim|]. split; [unfold stream; rewrite HO; reflexivity|].
  assert (Wk : only_walls K4) by (intros c f; exact I). assert (Wc : closed_mesh K4 [tt]) by (intros c f _; exact I).
  assert (Wn : NoDup [tt]) by (constructor; [intros []|constructor]).
  rewrite (uniform_walls K4 e9 w9 cs9 opp9 same1 keep1 lid (fun b _ _ => if Nat.eqb b 2 then drift else fun _ => 0) keep1_ok 0 [tt] hs (multiply z (fun a _ => w9 a)) f'
    (fun b _ => if Nat.eqb b 2 then drift else fun _ => 0) 6 0 same1_ok Wn); [|intros g _; destruct (hit_cell g); left; reflexivity|reflexivity|reflexivity|exact HO].
  assert (R0 := dropped_row K4 e9 opp9 (1 / 2) 1 corner_node dofs1 9 one_shape [tt] Wk Wc z 6 tt 0 HA (or_introl eq_refl) ltac:(lia) ltac:(lia) Hlim (fun c _ => w9 (S c))).
  cbn [multiply]. cbn [Nat.sub] in R0. rewrite R0.
  assert (E : forall h : hit unit, exchange (dim K4) e9 w9 cs9 6 (if Nat.eqb (hit_boundary h) 2 then drift else fun _ => 0) =
    if bottom h then exchange 2 e9 w9 cs9 6 drift else 0).
  { intros h. unfold bottom. destruct (Nat.eqb (hit_boundary h) 2); [reflexivity|]. unfold exchange, dot. cbn [dim cavity sumf]. unfold Rdiv. ring. }
  rewrite (sum_over_ext _ _ _ (fun h _ => E h)), sum_over_count. destruct (proj2 (Hfor 6%nat ltac:(lia)) eq_refl) as [_ Cnt]. rewrite Cnt.
  rewrite exchange9. destruct e9_68 as (E60 & E61 & _). rewrite E60, E61, (w9_val 6) by lia. unfold drift. cbn [nth Nat.eqb].
  replace (INR 25) with 25 by (cbn; lra). lra.
Qed.

(** ** First-order bounce back loses both populations in a corner *)
Definition others4 (f : nat) : behind unit := OtherBoundary f.
Notation O4 := (cavity others4).
Definition corner_hits' (a : nat) (y : list (hit unit)) : Prop :=
  Forall (fun h => hit_point h 0%nat = 0 /\ hit_point h 1%nat = 0) y /\ ((a = 6 \/ a = 8)%nat -> y <> []) /\ (a = 7%nat -> y = []) /\ (a = 5%nat -> y <> []).
Lemma corner_path' a : (1 <= a < 9)%nat -> exists l x y,
  path_loop O4 e9 opp9 (1 / 2) 51 [departs O4 e9 (1 / 2) tt 0 (to_real O4 tt (corner_node 0%nat)) a] = Some (Ok l) /\
  collect (event_entries O4 one_shape (fun _ j => j) 1) l = Ok x /\ collect (event_hits O4 e9 (1 / 2)) l = Ok y /\
  Forall (fun h => (hit_index h, hit_direction h) = (0%nat, a)) y /\ corner_hits' a y.
Proof.
  intros Ha. set (el := departs _ _ _ _ _ _ _). assert (Hc := corner_start others4 0 a). fold el in Hc.
  destruct (corner_cases a Ha) as [[H0 H1]|[H _]].
  - destruct (corner_found others4 el a Hc Ha H0 H1 ltac:(cbn; lia)) as (el1 & S1 & D1 & Q1). destruct Hc as (P0 & P1 & Q0 & Q1' & _).
    destruct (corner_entries others4 el1 a Ha H0 H1) as [x X]; [rewrite Q1; exact Q0|rewrite Q1; exact Q1'|].
    exists [Found el1], x, []. split; [rewrite loop_S, S1; reflexivity|]. split; [exact X|]. split; [reflexivity|]. split; [constructor|].
    split; [constructor|]. destruct e9_68 as (E60 & E61 & E80 & E81). split; [intros [-> | ->]; lra|]. split; [reflexivity|].
    intros ->. assert (V := e9_val 5 ltac:(lia)). cbn [nth] in V. injection V as V0 V1. lra.
  - destruct (corner_hit others4 el a ltac:(reflexivity) Hc Ha H ltac:(cbn; lia)) as (el1 & b & S1 & D1 & P0 & P1).
    exists [Hit el1 b], [], [make_hit O4 e9 (1 / 2) el1 b]. split; [rewrite loop_S, S1; reflexivity|]. split; [reflexivity|]. split; [reflexivity|].
    unfold dest in D1. injection D1 as D1 D1'.
    split; [constructor; [|constructor]; unfold make_hit; cbn [hit_index hit_direction]; rewrite D1, D1'; reflexivity|].
    split; [constructor; [|constructor]; unfold make_hit; cbn [hit_point]; auto|]. split; [discriminate|]. split; [|discriminate].
    intros ->. assert (V := e9_val 7 ltac:(lia)). cbn [nth] in V. injection V as V0 V1. lra.
Qed.

Lemma first_order_setting : exists f' z hs,
  assemble O4 e9 opp9 (1 / 2) 1 corner_node dofs1 9 one_shape [tt] = Some (Ok z) /\
  all_hits O4 e9 opp9 (1 / 2) 1 corner_node dofs1 9 [tt] = Some (Ok hs) /\
  stream O4 e9 w9 cs9 opp9 (1 / 2) (fun _ => FirstOrderBB) z (hit_list O4 same1 keep1 hs) [tt] (fun a _ => w9 a, 0) = Ok (f', 0 + 1 / 2) /\
  hits_for 6 0 hs <> [] /\ hits_for 8 0 hs <> [] /\ hits_for 7 0 hs = [] /\ hits_for 5 0 hs <> [].
Proof.
  destruct (one_cell O4 opp9 e9 (1 / 2) 9 corner_node one_shape corner_hits') as (z & hs & ys & HA & HH & Ehs & F & Hfor & Hdir).
  { intros a Ha. destruct (corner_path' a Ha) as (l & x & y & H1 & H2 & H3 & H4 & H5). exists l, x, y. auto. }
  destruct (operate_total O4 e9 w9 cs9 opp9 same1 keep1 (fun _ => FirstOrderBB) keep1_ok 0 hs [tt] (multiply z (fun a _ => w9 a))) as [f' HO].
  { intros [] h Hh. rewrite Ehs in Hh. apply in_concat in Hh. destruct Hh as (y & Hy & Hh). destruct (Forall2_in_r _ _ _ _ F Hy) as (a & _ & Hf & _).
    rewrite Forall_forall in Hf. destruct (Hf h Hh) as [P0 P1]. exact (corner_getPoint others4 h P0 P1). }
  assert (HS : stream O4 e9 w9 cs9 opp9 (1 / 2) (fun _ => FirstOrderBB) z (hit_list O4 same1 keep1 hs) [tt] (fun a _ => w9 a, 0) = Ok (f', 0 + 1 / 2))
    by (unfold stream; rewrite HO; reflexivity).
  exists f', z, hs. split; [exact HA|]. split; [exact HH|]. split; [exact HS|].
  split; [exact (proj1 (proj2 (Hfor 6%nat ltac:(lia))) (or_introl eq_refl))|]. split; [exact (proj1 (proj2 (Hfor 8%nat ltac:(lia))) (or_intror eq_refl))|].
  split; [exact (proj1 (proj2 (proj2 (Hfor 7%nat ltac:(lia)))) eq_refl)|exact (proj2 (proj2 (proj2 (Hfor 5%nat ltac:(lia)))) eq_refl)].
Qed.
Lemma others4_ok : only_hits O4 /\ closed_mesh O4 [tt] /\ NoDup [tt].
Proof. split; [intros c f; exact I|]. split; [intros c f _; exact I|]. constructor; [intros []|constructor]. Qed.

Lemma first_order_refuted : exists f' z hs,
  assemble O4 e9 opp9 (1 / 2) 1 corner_node dofs1 9 one_shape [tt] = Some (Ok z) /\
  all_hits O4 e9 opp9 (1 / 2) 1 corner_node dofs1 9 [tt] = Some (Ok hs) /\
  stream O4 e9 w9 cs9 opp9 (1 / 2) (fun _ => FirstOrderBB) z (hit_list O4 same1 keep1 hs) [tt] (fun a _ => w9 a, 0) = Ok (f', 0 + 1 / 2) /\
  f' 6%nat 0%nat = 0 /\ f' 8%nat 0%nat = 0 /\ w9 6 = 1 / 36 /\ w9 8 = 1 / 36.
Proof.
  destruct first_order_setting as (f' & z & hs & HA & HH & HS & B6 & B8 & _). destruct others4_ok as (Wk & Wc & Wn).
  exists f', z, hs. split; [exact HA|]. split; [exact HH|]. split; [exact HS|].
  assert (G := fun a Ha H1 H2 => first_order_both O4 e9 w9 cs9 opp9 (1 / 2) 1 corner_node dofs1 9 one_shape [tt] Wk Wc shape1_ok same1 keep1 (fun _ => FirstOrderBB)
    (fun a _ => w9 a) 0 f' (0 + 1 / 2) z hs opposites9 keep1_ok same1_ok Wn ltac:(reflexivity) HA HH HS a tt 0%nat Ha (or_introl eq_refl) ltac:(lia) H1 H2).
  split; [exact (G 6%nat ltac:(lia) B6 B8)|]. split; [exact (G 8%nat ltac:(lia) B8 B6)|]. rewrite !w9_val by lia. cbn [nth]. lra.
Qed.

(** ** Example for paths at the limit: walls at rest *)
Lemma limit_example : exists f' z hs,
  assemble K4 e9 opp9 (1 / 2) 1 corner_node dofs1 9 one_shape [tt] = Some (Ok z) /\
  all_hits K4 e9 opp9 (1 / 2) 1 corner_node dofs1 9 [tt] = Some (Ok hs) /\
  reaches_limit K4 e9 opp9 (1 / 2) 1 corner_node dofs1 [tt] 6 0 /\ length (hits_for 6 0 hs) = 50%nat /\
  stream K4 e9 w9 cs9 opp9 (1 / 2) (fun _ => VelocityBB (fun _ _ _ => 0)) z (hit_list K4 same1 keep1 hs) [tt] (fun a _ => w9 a, 0) = Ok (f', 0 + 1 / 2).
Proof.
  destruct (one_cell K4 opp9 e9 (1 / 2) 9 corner_node one_shape corner_hits) as (z & hs & ys & HA & HH & Ehs & F & Hfor & Hdir).
  { intros a Ha. destruct (corner_path a Ha) as (l & x & y & H1 & H2 & H3 & H4 & H5). exists l, x, y. auto. }
  destruct (operate_total K4 e9 w9 cs9 opp9 same1 keep1 (fun _ => VelocityBB (fun _ _ _ => 0)) keep1_ok 0 hs [tt] (multiply z (fun a _ => w9 a))) as [f' HO].
  { intros [] h Hh. rewrite Ehs in Hh. apply in_concat in Hh. destruct Hh as (y & Hy & Hh). destruct (Forall2_in_r _ _ _ _ F Hy) as (a & _ & Hf & _).
    rewrite Forall_forall in Hf. destruct (proj2 (Hf h Hh)) as [P0 P1]. exact (corner_getPoint walls4 h P0 P1). }
  exists f', z, hs. split; [exact HA|]. split; [exact HH|]. split.
  { intros [] j _ Hj ->. destruct (pingpong 50 _ 6 ltac:(lia) (corner_start walls4 0 6) (or_introl eq_refl) eq_refl) as (l & _ & el' & P & _ & _ & D & _).
    exists l, el'. split; [exact P|exact D]. }
  split; [exact (proj1 (proj2 (Hfor 6%nat ltac:(lia)) eq_refl))|]. unfold stream. rewrite HO. reflexivity.
Qed.
Lemma k4_ok : only_walls K4 /\ closed_mesh K4 [tt] /\ NoDup [tt].
Proof. split; [intros c f; exact I|]. split; [intros c f _; exact I|]. constructor; [intros []|constructor]. Qed.
