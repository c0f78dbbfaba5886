(** Witnesses in the corner of a cavity. *)
From Coq Require Import Permutation.
From Verif Require Import Prelude BigSum ModelStencils ModelSemiLagrangian SpecSemiLagrangian ProofSemiLagrangian ProofSemiLagrangian2
  ProofSemiLagrangian3 ProofSemiLagrangian4 ProofSemiLagrangian5 ModelWalls SpecWalls ProofWalls ProofWalls2 ProofWalls3 ProofWalls4 ProofWalls5
  ProofWalls6 ProofWalls7 ProofWalls8.
Local Open Scope R_scope.

(** The unit square, one cell; the only node sits in the corner (0, 0). *)
Definition cavity (kind : nat -> behind unit) : mesh unit :=
  mkMesh 2 (fun _ x => Some x) (fun _ u => u) (fun _ _ => (fun _ => 0, fun _ => 0)) (fun _ f => kind f) (fun _ => true).
Definition corner_node (_ : nat) : point := fun _ => 0.

Section Corner.
  Variable kind : nat -> behind unit.
  Notation C := (cavity kind).

  Lemma corner_none el a : currentPoint el 0%nat = 0 -> currentPoint el 1%nat = 0 ->
    departurePoint el 0%nat = - (1 / 2) * e9 a 0%nat -> departurePoint el 1%nat = - (1 / 2) * e9 a 1%nat ->
    (1 <= a < 9)%nat -> e9 a 0%nat <= 0 -> e9 a 1%nat <= 0 ->
    findFace C (currentCell el) (currentPoint el) (departurePoint el) = Ok None.
  Proof.
    intros P0 P1 Q0 Q1 Ha H0 H1. destruct (e9_cases a Ha) as (Hc & Hx & _).
    assert (Hin : nearly_inside 2 (currentPoint el)) by (intros i Hi; destruct i as [|[|i]]; [| |lia]; rewrite ?P0, ?P1; lra).
    unfold findFace, faceCrossedFirst. cbn [to_unit cavity dim].
    destruct (crossed_unit_spec 2 _ (departurePoint el) ltac:(lia) Hin) as (r & E & Hn & _). rewrite E. cbn [obind].
    rewrite (proj2 Hn); [reflexivity|]. intros i Hi. destruct i as [|[|i]]; [| |lia]; rewrite ?Q0, ?Q1; lra.
  Qed.

  Lemma corner_face el a : currentPoint el 0%nat = 0 -> currentPoint el 1%nat = 0 ->
    departurePoint el 0%nat = - (1 / 2) * e9 a 0%nat -> departurePoint el 1%nat = - (1 / 2) * e9 a 1%nat ->
    (1 <= a < 9)%nat -> 0 < e9 a 0%nat \/ 0 < e9 a 1%nat ->
    exists k, findFace C (currentCell el) (currentPoint el) (departurePoint el) = Ok (Some k) /\ cr_point k 0%nat = 0 /\ cr_point k 1%nat = 0 /\
      (cr_face k = 0%nat /\ 0 < e9 a 0%nat \/ cr_face k = 2%nat /\ 0 < e9 a 1%nat).
  Proof.
    intros P0 P1 Q0 Q1 Ha H. destruct (e9_cases a Ha) as (Hc & Hx & _).
    assert (V : forall i, (i < 2)%nat -> e9 a i = 0 \/ e9 a i = 1 \/ e9 a i = -1).
    { assert (V := e9_val a Ha). clear -V Ha. destruct a as [|a]; [lia|]. intros i Hi. do 8 (destruct a as [|a]; [cbn [nth] in V; injection V as V0 V1; destruct i as [|[|i]]; [| |lia]; lra|]). lia. }
    assert (V0 := V 0%nat ltac:(lia)). assert (V1 := V 1%nat ltac:(lia)).
    assert (Hin : nearly_inside 2 (currentPoint el)) by (intros i Hi; destruct i as [|[|i]]; [| |lia]; rewrite ?P0, ?P1; lra).
    destruct (crossed_unit_spec 2 _ (departurePoint el) ltac:(lia) Hin) as (r & E & Hn & Hk).
    destruct r as [k|].
    2:{ exfalso. assert (N := proj1 Hn eq_refl). assert (N0 := N 0%nat ltac:(lia)). assert (N1 := N 1%nat ltac:(lia)). rewrite Q0 in N0. rewrite Q1 in N1. lra. }
    destruct (Hk k eq_refl) as (d & s & Hd & (Ef & Hs) & Hb & _). clear Hk.
    destruct (cross_formula _ _ _ E) as (d' & s' & Hd' & Hs' & Ef' & El & Ep).
    assert (d' = d /\ s' = s) as [-> ->] by lia.
    assert (Hs0 : s = 0%nat /\ 0 < e9 a d).
    { unfold beyond in Hb. destruct d as [|[|d]]; [| |lia]; rewrite ?Q0, ?Q1 in Hb; destruct Hs as [-> | ->]; cbn [Nat.eqb] in Hb; split; (reflexivity || lra). }
    destruct Hs0 as [-> Hpos]. assert (S0 : forall i, (i < 2)%nat -> snap (currentPoint el i) = 0) by (intros i Hi; destruct i as [|[|i]]; [| |lia]; rewrite ?P0, ?P1; apply snap_zero).
    assert (L : cr_lambda k = 0) by (rewrite El, (S0 d Hd); cbn [INR]; unfold Rdiv; rewrite Rminus_0_r; ring).
    assert (Z : forall i, (i < 2)%nat -> cr_point k i = 0) by (intros i Hi; rewrite Ep, L, (S0 i Hi); replace (0 + _) with 0 by ring; apply snap_zero).
    exists (mkCrossing (cr_face k) (cr_lambda k) (cr_point k) (cr_child k)). unfold findFace, faceCrossedFirst. cbn [to_unit cavity dim]. rewrite E. cbn [obind option_map].
    split; [reflexivity|]. cbn [cr_point cr_face to_real cavity]. split; [apply Z; lia|]. split; [apply Z; lia|].
    destruct d as [|[|d]]; [left|right|lia]; split; auto; lia.
  Qed.

  (** One pass in the corner. *)
  Definition at_corner (el : tracker unit) (a : nat) : Prop := currentPoint el 0%nat = 0 /\ currentPoint el 1%nat = 0 /\
    departurePoint el 0%nat = - (1 / 2) * e9 a 0%nat /\ departurePoint el 1%nat = - (1 / 2) * e9 a 1%nat /\
    currentDirection el = a /\ hit_do_nothing el = false.

  Lemma corner_found el a : at_corner el a -> (1 <= a < 9)%nat -> e9 a 0%nat <= 0 -> e9 a 1%nat <= 0 -> (lifeTimeCounter el < 50)%nat ->
    exists el', step C e9 opp9 (1 / 2) el = Ok (Found el') /\ dest el' = dest el /\ departurePoint el' = departurePoint el.
  Proof.
    intros (P0 & P1 & Q0 & Q1 & Hd & Hdn) Ha H0 H1 Hl. assert (F := corner_none el a P0 P1 Q0 Q1 Ha H0 H1).
    unfold step. cbn [lifeTimeCounter currentCell currentPoint departurePoint dest_index dest_direction currentDirection hit_do_nothing].
    destruct (Nat.ltb_spec 50 (S (lifeTimeCounter el))) as [L|L]; [lia|]. rewrite F. cbn [obind].
    eexists. split; [reflexivity|]. split; reflexivity.
  Qed.

  Lemma corner_bounce el a : (forall f, kind f = BounceBack f) -> at_corner el a -> (1 <= a < 9)%nat -> 0 < e9 a 0%nat \/ 0 < e9 a 1%nat ->
    (lifeTimeCounter el < 50)%nat ->
    exists el' b, step C e9 opp9 (1 / 2) el = Ok (ContinueHit el' b) /\ at_corner el' (opp9 a) /\ dest el' = dest el /\
      lifeTimeCounter el' = S (lifeTimeCounter el) /\ (b = 0%nat /\ 0 < e9 a 0%nat \/ b = 2%nat /\ 0 < e9 a 1%nat).
  Proof.
    intros Hk (P0 & P1 & Q0 & Q1 & Hd & Hdn) Ha H Hl. destruct (corner_face el a P0 P1 Q0 Q1 Ha H) as (k & F & K0 & K1 & Kf).
    destruct (e9_cases a Ha) as (Hc & Hx & Hopp). assert (O0 := Hopp 0%nat ltac:(lia)). assert (O1 := Hopp 1%nat ltac:(lia)).
    unfold step. cbn [lifeTimeCounter currentCell currentPoint departurePoint dest_index dest_direction currentDirection hit_do_nothing].
    destruct (Nat.ltb_spec 50 (S (lifeTimeCounter el))) as [L|L]; [lia|]. rewrite F. cbn [obind face_behind cavity]. rewrite Hk.
    do 2 eexists. split; [reflexivity|]. rewrite Hd.
    set (N := norm C (e9 (opp9 a))).
    assert (EN : N = sqrt (e9 a 0%nat * e9 a 0%nat + e9 a 1%nat * e9 a 1%nat)).
    { unfold N, norm, dot. cbn [dim cavity sumf]. f_equal. rewrite O0, O1. ring. }
    assert (PN : 0 < N) by (rewrite EN; apply sqrt_lt_R0; nra).
    set (m := norm C (fun i => departurePoint el i - cr_point k i)).
    assert (Em : m = 1 / 2 * N).
    { unfold m, norm, dot. cbn [dim cavity sumf]. rewrite Q0, Q1, K0, K1, EN.
      set (E := e9 a 0%nat * e9 a 0%nat + e9 a 1%nat * e9 a 1%nat). replace (1 / 2 * sqrt E) with (sqrt (Rsqr (1 / 2)) * sqrt E) by (rewrite sqrt_Rsqr; lra).
      rewrite <- sqrt_mult_alt by apply Rle_0_sqr. f_equal. unfold Rsqr, E. field. }
    split.
    - unfold at_corner. cbn [currentPoint departurePoint currentDirection hit_do_nothing]. split; [exact K0|]. split; [exact K1|].
      rewrite K0, K1, Em. split; [field; lra|]. split; [field; lra|]. auto.
    - split; [reflexivity|]. split; [reflexivity|]. exact Kf.
  Qed.

  Lemma corner_hit el a : (forall f, kind f = OtherBoundary f) -> at_corner el a -> (1 <= a < 9)%nat -> 0 < e9 a 0%nat \/ 0 < e9 a 1%nat ->
    (lifeTimeCounter el < 50)%nat -> exists el' b, step C e9 opp9 (1 / 2) el = Ok (Hit el' b) /\ dest el' = dest el /\
      currentPoint el' 0%nat = 0 /\ currentPoint el' 1%nat = 0.
  Proof.
    intros Hk (P0 & P1 & Q0 & Q1 & Hd & Hdn) Ha H Hl. destruct (corner_face el a P0 P1 Q0 Q1 Ha H) as (k & F & K0 & K1 & Kf).
    unfold step. cbn [lifeTimeCounter currentCell currentPoint departurePoint dest_index dest_direction currentDirection hit_do_nothing].
    destruct (Nat.ltb_spec 50 (S (lifeTimeCounter el))) as [L|L]; [lia|]. rewrite F. cbn [obind face_behind cavity]. rewrite Hk.
    do 2 eexists. split; [reflexivity|]. split; [reflexivity|]. auto.
  Qed.

  Lemma corner_start i a : at_corner (departs C e9 (1 / 2) tt i (to_real C tt (corner_node 0%nat)) a) a.
  Proof. unfold at_corner, departs, corner_node. cbn [currentPoint departurePoint currentDirection hit_do_nothing to_real cavity]. repeat split; lra. Qed.

  Lemma corner_entries el a : (1 <= a < 9)%nat -> e9 a 0%nat <= 0 -> e9 a 1%nat <= 0 -> 
    departurePoint el 0%nat = - (1 / 2) * e9 a 0%nat -> departurePoint el 1%nat = - (1 / 2) * e9 a 1%nat ->
    exists x, collect (event_entries C one_shape (fun _ j => j) 1) [Found el] = Ok x.
  Proof.
    intros Ha H0 H1 Q0 Q1. destruct (e9_cases a Ha) as (Hc & Hx & _). cbn [collect event_entries]. unfold shapeValues. cbn [to_unit cavity dim].
    assert (I : all_inside 2 (snap_point (departurePoint el)) = true).
    { apply all_inside_iff. intros i Hi. unfold snap_point. apply snap_inside. assert (T := tol_small). destruct i as [|[|i]]; [| |lia]; rewrite ?Q0, ?Q1; lra. }
    rewrite I. cbn [obind]. eexists. reflexivity.
  Qed.
End Corner.

(** Directions at the corner: those that leave, those that stay; (-1, 1) and (1, -1) alternate. *)
Lemma corner_cases a : (1 <= a < 9)%nat ->
  (e9 a 0%nat <= 0 /\ e9 a 1%nat <= 0) \/
  ((0 < e9 a 0%nat \/ 0 < e9 a 1%nat) /\ ((e9 (opp9 a) 0%nat <= 0 /\ e9 (opp9 a) 1%nat <= 0) \/ (a = 6 \/ a = 8)%nat)).
Proof.
  intros Ha. destruct (e9_cases a Ha) as (_ & _ & Hopp). assert (O0 := Hopp 0%nat ltac:(lia)). assert (O1 := Hopp 1%nat ltac:(lia)). rewrite O0, O1.
  assert (V := e9_val a Ha). clear -V Ha. destruct a as [|a]; [lia|]. do 8 (destruct a as [|a]; [cbn [nth] in V; injection V as V0 V1; rewrite V0, V1; try (left; lra); right; (split; [lra|]); try (left; lra); right; lia|]). lia.
Qed.
Lemma e9_68 : e9 6 0%nat = -1 /\ e9 6 1%nat = 1 /\ e9 8 0%nat = 1 /\ e9 8 1%nat = -1.
Proof. assert (V := e9_val 6 ltac:(lia)). assert (V' := e9_val 8 ltac:(lia)). cbn [nth] in V, V'. injection V as V0 V1. injection V' as V0' V1'. auto. Qed.

(** ** Bounce back: 50 hits *)
Notation K4 := (cavity walls4).
Definition bottom (h : hit unit) : bool := Nat.eqb (hit_boundary h) 2.
Lemma pingpong m : forall el a, (m <= 50)%nat -> at_corner el a -> (a = 6 \/ a = 8)%nat -> lifeTimeCounter el = (50 - m)%nat ->
  exists l y el', path_loop K4 e9 opp9 (1 / 2) (S m) [el] = Some (Ok l) /\
    collect (event_entries K4 one_shape (fun _ j => j) 1) l = Ok [((dest_direction el - 1)%nat, (dest_direction el - 1)%nat, dest_index el, dest_index el, 1)] /\
    collect (event_hits K4 e9 (1 / 2)) l = Ok y /\ In (Diagonal el') l /\
    Forall (fun h => (hit_index h, hit_direction h) = dest el /\ hit_point h 0%nat = 0 /\ hit_point h 1%nat = 0) y /\ length y = m /\
    length (List.filter bottom y) = if Nat.eqb a 6 then Nat.div2 (S m) else Nat.div2 m.
Proof.
  induction m as [|m IH]; intros el a Hm Hc Ha Hl.
  - exists [Diagonal (mkTracker (dest_index el) (dest_direction el) (currentDirection el) (S (lifeTimeCounter el))
                (departurePoint el) (currentPoint el) (currentCell el) (hit_do_nothing el))], [].
    eexists. split; [|split; [|split; [|split; [left; reflexivity|split; [constructor|split; [reflexivity|]]]]]].
    + rewrite loop_S. unfold step. cbn [lifeTimeCounter]. rewrite Hl. reflexivity.
    + reflexivity.
    + reflexivity.
    + destruct Ha as [-> | ->]; reflexivity.
  - destruct e9_68 as (E60 & E61 & E80 & E81).
    destruct (corner_bounce walls4 el a ltac:(reflexivity) Hc ltac:(lia) ltac:(destruct Ha as [-> | ->]; lra) ltac:(lia)) as (el1 & b & S1 & C1 & D1 & L1 & B1).
    destruct (IH el1 (opp9 a) ltac:(lia) C1 ltac:(destruct Ha as [-> | ->]; cbn; auto) ltac:(lia)) as (l & y & el' & P & X & Y & Dg & F & Len & Cnt).
    unfold dest in D1. injection D1 as D1 D1'.
    exists (ContinueHit el1 b :: l), (make_hit K4 e9 (1 / 2) el1 b :: y), el'.
    split; [rewrite loop_S, S1, P; reflexivity|].
    split; [cbn [collect event_entries obind]; rewrite X; cbn [obind app]; rewrite D1, D1'; reflexivity|].
    split; [cbn [collect event_hits obind]; rewrite Y; reflexivity|]. split; [right; exact Dg|].
    split. { constructor; [|unfold dest in F; rewrite D1, D1' in F; exact F]. unfold make_hit, dest. cbn [hit_index hit_direction hit_point]. destruct C1 as (A & B & _). rewrite D1, D1'. auto. }
    split; [cbn [length]; rewrite Len; reflexivity|].
    destruct Ha as [-> | ->]; cbn [List.filter make_hit]; unfold bottom at 1; cbn [hit_boundary make_hit].
    + destruct B1 as [[_ B1]|[-> _]]; [lra|]. cbn [Nat.eqb length Nat.div2]. f_equal. exact Cnt.
    + destruct B1 as [[-> _]|[_ B1]]; [|lra]. cbn [Nat.eqb length]. exact Cnt.
Qed.

Definition corner_hits (a : nat) (y : list (hit unit)) : Prop :=
  Forall (fun h => hit_index h = 0%nat /\ hit_point h 0%nat = 0 /\ hit_point h 1%nat = 0) y /\
  (a = 6%nat -> length y = 50%nat /\ length (List.filter bottom y) = 25%nat).

Lemma corner_path a : (1 <= a < 9)%nat -> exists l x y,
  path_loop K4 e9 opp9 (1 / 2) 51 [departs K4 e9 (1 / 2) tt 0 (to_real K4 tt (corner_node 0%nat)) a] = Some (Ok l) /\
  collect (event_entries K4 one_shape (fun _ j => j) 1) l = Ok x /\ collect (event_hits K4 e9 (1 / 2)) l = Ok y /\
  Forall (fun h => (hit_index h, hit_direction h) = (0%nat, a)) y /\ corner_hits a y.
Proof.
  intros Ha. set (el := departs _ _ _ _ _ _ _). assert (Hc := corner_start walls4 0 a). fold el in Hc.
  assert (Dec : (a = 6 \/ a = 8)%nat \/ a <> 6%nat /\ a <> 8%nat) by lia. destruct Dec as [H68|N68].
  - destruct (pingpong 50 el a ltac:(lia) Hc H68 eq_refl) as (l & y & el' & P & X & Y & _ & F & Len & Cnt).
    exists l. eexists. exists y. split; [exact P|]. split; [exact X|]. split; [exact Y|].
    split; [eapply Forall_impl; [|exact F]; intros h (A & _); exact A|]. split.
    + eapply Forall_impl; [|exact F]. intros h (A & B & D). cbn in A. injection A as A _. auto.
    + intros ->. split; [exact Len|]. rewrite Cnt. reflexivity.
  - destruct (corner_cases a Ha) as [[H0 H1]|[H [[H0 H1]|H68]]]; [| |lia].
    + destruct (corner_found walls4 el a Hc Ha H0 H1 ltac:(cbn; lia)) as (el1 & S1 & D1 & Q1). destruct Hc as (P0 & P1 & Q0 & Q1' & _).
      destruct (corner_entries walls4 el1 a Ha H0 H1) as [x X]; [rewrite Q1; exact Q0|rewrite Q1; exact Q1'|].
      exists [Found el1], x, []. split; [rewrite loop_S, S1; reflexivity|]. split; [exact X|]. split; [reflexivity|]. split; [constructor|].
      split; [constructor|]. intros ->. lia.
    + destruct (corner_bounce walls4 el a ltac:(reflexivity) Hc Ha H ltac:(cbn; lia)) as (el1 & b & S1 & C1 & D1 & L1 & B1).
      assert (Ha' := proj1 (opp9_opp a Ha)).
      destruct (corner_found walls4 el1 (opp9 a) C1 Ha' H0 H1 ltac:(rewrite L1; cbn; lia)) as (el2 & S2 & D2 & Q2). destruct C1 as (P0 & P1 & Q0 & Q1' & _).
      destruct (corner_entries walls4 el2 (opp9 a) Ha' H0 H1) as [x X]; [rewrite Q2; exact Q0|rewrite Q2; exact Q1'|].
      exists [ContinueHit el1 b; Found el2], x, [make_hit K4 e9 (1 / 2) el1 b]. split; [rewrite loop_S, S1, loop_S, S2; reflexivity|].
      split; [change (obind (collect (event_entries K4 one_shape (fun _ j => j) 1) [Found el2]) (fun y => Ok y) = Ok x); rewrite X; reflexivity|].
      split; [reflexivity|]. unfold dest in D1. injection D1 as D1 D1'.
      split; [constructor; [|constructor]; unfold make_hit; cbn [hit_index hit_direction]; rewrite D1, D1'; reflexivity|].
      split; [constructor; [|constructor]; unfold make_hit; cbn [hit_index hit_point]; rewrite D1; auto|]. intros ->. lia.
Qed.
