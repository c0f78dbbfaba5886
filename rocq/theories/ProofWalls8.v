(** Witnesses in the channel. *)
From Coq Require Import Permutation.
From Verif Require Import Prelude BigSum ModelStencils ModelSemiLagrangian SpecSemiLagrangian ProofSemiLagrangian ProofSemiLagrangian2
  ProofSemiLagrangian3 ProofSemiLagrangian4 ProofSemiLagrangian5 ModelWalls SpecWalls ProofWalls ProofWalls2 ProofWalls3 ProofWalls4 ProofWalls6 ProofWalls7.
Local Open Scope R_scope.

Lemma w9_val : forall a, (1 <= a < 9)%nat -> w9 a = nth a [16 / 36; 4 / 36; 4 / 36; 4 / 36; 4 / 36; 1 / 36; 1 / 36; 1 / 36; 1 / 36] 0.
Proof. intros a Ha. unfold w9, D2Q9, wtbl. cbn [st_w]. destruct a as [|a]; [lia|]. do 8 (destruct a as [|a]; [cbn; unfold Q2R; cbn; lra|]). lia. Qed.
Lemma w9_opp a : (1 <= a < 9)%nat -> w9 (opp9 a) = w9 a.
Proof.
  intros Ha. rewrite (w9_val a Ha), (w9_val (opp9 a) (proj1 (opp9_opp a Ha))). destruct a as [|a]; [lia|]. do 8 (destruct a as [|a]; [reflexivity|]). lia.
Qed.
Lemma cs9_val : cs9 = 1 / 3.
Proof. unfold cs9, D2Q9. cbn. lra. Qed.
Lemma exchange9 a u : exchange 2 e9 w9 cs9 a u = 6 * w9 a * (u 0%nat * e9 a 0%nat + u 1%nat * e9 a 1%nat).
Proof. unfold exchange. rewrite cs9_val. unfold dot. cbn [sumf]. field. Qed.

Notation dofs1 := (fun (_ : unit) (j : nat) => j).
Notation same1 := (fun _ _ : unit => true).
Notation keep1 := (fun t : hit_tree (cell := unit) => t).

Lemma same1_ok : decides same1.
Proof. intros [] []. split; auto. Qed.
Lemma keep1_ok : keeps_order keep1.
Proof. intros t. reflexivity. Qed.
Lemma opposites9 : opposites 9 opp9.
Proof. intros a Ha. exact (opp9_opp a Ha). Qed.
Lemma shape1_ok : partition_of_unity 2 1 one_shape.
Proof. intros u _. cbn [sumf]. unfold one_shape. ring. Qed.
Lemma walls4_ok : only_walls C4 /\ closed_mesh C4 [tt] /\ NoDup [tt].
Proof. split; [intros c f; exact I|]. split; [intros c f _; exact I|]. constructor; [intros []|constructor]. Qed.

Lemma hit_getPoint kind a s d X h : is_hit a s d X h -> 0 <= X <= 10 -> (s = 0 \/ s = 1)%nat -> stable (X / 10) ->
  exists u, getPoint (chan kind) tt (hit_point h) = Ok u /\ u 0%nat = X / 10 /\ u 1%nat = INR s.
Proof.
  intros (_ & _ & H0 & H1 & _) HX Hs St. unfold getPoint. cbn [to_unit chan dim].
  assert (S1 : snap (hit_point h 1%nat / width 1) = INR s).
  { unfold width. cbn [Nat.eqb]. rewrite H1. unfold Rdiv. rewrite Rinv_1, Rmult_1_r. destruct Hs as [-> | ->]; cbn; [apply snap_zero|apply snap_one]. }
  assert (S0 : snap (hit_point h 0%nat / width 0) = X / 10) by (unfold width; cbn [Nat.eqb]; rewrite H0; exact St).
  assert (I : all_inside 2 (snap_point (fun i => hit_point h i / width i)) = true).
  { apply all_inside_iff. intros i Hi. unfold snap_point. destruct i as [|[|i]]; [| |lia]; [rewrite S0; lra|rewrite S1; destruct Hs as [-> | ->]; cbn; lra]. }
  rewrite I. eexists. split; [reflexivity|]. unfold snap_point. auto.
Qed.

Lemma wall_of_01 a : (wall_of a = 0 \/ wall_of a = 1)%nat.
Proof. unfold wall_of. destruct (Rlt_dec _ _); auto. Qed.

Lemma in_hits_for (hs : list (hit unit)) h : hit_index h = 0%nat -> In h hs -> In h (hits_for (hit_direction h) 0 hs).
Proof. intros H Hin. apply filter_In. split; [exact Hin|]. unfold addressed. rewrite H, !Nat.eqb_refl. reflexivity. Qed.

(** The step with dt = 1: one hit. *)
Lemma chan1 : exists z hs, assemble C4 e9 opp9 1 1 mid dofs1 9 one_shape [tt] = Some (Ok z) /\
  all_hits C4 e9 opp9 1 1 mid dofs1 9 [tt] = Some (Ok hs) /\
  (forall a, (1 <= a < 9)%nat -> hits1 a (hits_for a 0 hs)) /\ none_dropped C4 e9 opp9 1 9 1 mid [tt] /\
  (forall h, In h hs -> (1 <= hit_direction h < 9)%nat /\ is_hit (hit_direction h) (wall_of (hit_direction h)) (1 / 2) (5 - e9 (hit_direction h) 0%nat / 2) h) /\
  exists h r, hs = h :: r /\ hit_direction h = 2%nat /\ forall h', In h' r -> hit_direction h' <> 2%nat.
Proof.
  destruct (one_cell C4 opp9 e9 1 9 mid one_shape (fun a y => hits1 a y /\ Forall (fun h => (hit_index h, hit_direction h) = (0%nat, a)) y)) as (z & hs & ys & HA & HH & Ehs & F & Hfor & Hdir).
  { intros a Ha. destruct (path1 0 a Ha) as (l & x & y & H1 & H2 & H3 & H4 & H5 & _). exists l, x, y. auto 10. }
  assert (Hidx : forall h, In h hs -> hit_index h = 0%nat).
  { intros h Hh. rewrite Ehs in Hh. apply in_concat in Hh. destruct Hh as (y & Hy & Hh). destruct (Forall2_in_r _ _ _ _ F Hy) as (a & _ & _ & Hf).
    rewrite Forall_forall in Hf. specialize (Hf h Hh). injection Hf as -> _. reflexivity. }
  exists z, hs. split; [exact HA|]. split; [exact HH|]. split; [intros a Ha; exact (proj1 (Hfor a Ha))|]. split; [|split].
  - intros c i j a l el Hc Hj Ha HL. assert (j = 0)%nat by lia. subst j. destruct c. destruct (path1 i a Ha) as (l' & _ & _ & HL' & _ & _ & _ & _ & Hn).
    rewrite HL in HL'. injection HL' as <-. apply Hn.
  - intros h Hh. assert (Ha := Hdir h Hh). split; [exact Ha|]. assert (Hin := in_hits_for hs h (Hidx h Hh) Hh).
    assert (H := proj1 (Hfor _ Ha)). unfold hits1 in H. destruct (Req_EM_T _ 0); [rewrite H in Hin; destruct Hin|].
    destruct H as (h' & E & Hh'). rewrite E in Hin. destruct Hin as [<-|[]]. exact Hh'.
  - subst hs. cbn [List.seq Nat.sub] in F. inversion F as [|? y1 ? ? [P1 _] F1]; subst. inversion F1 as [|? y2 ? ? [P2 _] F2]; subst. unfold hits1 in P1, P2.
    assert (V1 := e9_val 1 ltac:(lia)). assert (V2 := e9_val 2 ltac:(lia)). cbn [nth] in V1, V2. injection V1 as V10 V11. injection V2 as V20 V21.
    rewrite V11 in P1. rewrite V21 in P2. destruct (Req_EM_T 0 0) as [_|N]; [|contradiction]. destruct (Req_EM_T 1 0) as [N|_]; [lra|].
    destruct P2 as (h & -> & Hh). subst y1. exists h. cbn [concat app]. eexists. split; [reflexivity|]. destruct Hh as (-> & _). split; [reflexivity|].
    intros h' Hh' E. apply in_concat in Hh'. destruct Hh' as (y & Hy & Hh'). destruct (Forall2_in_r _ _ _ _ F2 Hy) as (a & Ha & _ & Hf).
    rewrite Forall_forall in Hf. specialize (Hf h' Hh'). injection Hf as _ Hf. rewrite E in Hf. subst a. cbn in Ha. lia.
Qed.

(** The step with dt = 2: two hits. *)
Lemma chan2 : exists z hs, assemble C4 e9 opp9 2 1 mid dofs1 9 one_shape [tt] = Some (Ok z) /\
  all_hits C4 e9 opp9 2 1 mid dofs1 9 [tt] = Some (Ok hs) /\
  (forall a, (1 <= a < 9)%nat -> hits2 a (hits_for a 0 hs)) /\ none_dropped C4 e9 opp9 2 9 1 mid [tt] /\
  forall h, In h hs -> (1 <= hit_direction h < 9)%nat /\ exists s d X, (s = 0 \/ s = 1)%nat /\ 3 <= X <= 7 /\ is_hit (hit_direction h) s d X h.
Proof.
  destruct (one_cell C4 opp9 e9 2 9 mid one_shape (fun a y => hits2 a y /\ Forall (fun h => hit_index h = 0%nat) y)) as (z & hs & ys & HA & HH & Ehs & F & Hfor & Hdir).
  { intros a Ha. destruct (path2 0 a Ha) as (l & x & y & H1 & H2 & H3 & H4 & H5 & _). exists l, x, y. repeat (split; [assumption|]).
    eapply Forall_impl; [|exact H4]. cbn. intros h E. injection E as E _. exact E. }
  assert (Hidx : forall h, In h hs -> hit_index h = 0%nat).
  { intros h Hh. rewrite Ehs in Hh. apply in_concat in Hh. destruct Hh as (y & Hy & Hh). destruct (Forall2_in_r _ _ _ _ F Hy) as (a & _ & _ & Hf).
    rewrite Forall_forall in Hf. exact (Hf h Hh). }
  exists z, hs. split; [exact HA|]. split; [exact HH|]. split; [intros a Ha; exact (proj1 (Hfor a Ha))|]. split.
  - intros c i j a l el Hc Hj Ha HL. assert (j = 0)%nat by lia. subst j. destruct c. destruct (path2 i a Ha) as (l' & _ & _ & HL' & _ & _ & _ & _ & Hn).
    rewrite HL in HL'. injection HL' as <-. apply Hn.
  - intros h Hh. assert (Ha := Hdir h Hh). split; [exact Ha|]. assert (Hin := in_hits_for hs h (Hidx h Hh) Hh). destruct (e9_cases _ Ha) as (_ & Hx & _).
    assert (H := proj1 (Hfor _ Ha)). unfold hits2 in H. destruct (Req_EM_T _ 0); [rewrite H in Hin; destruct Hin|].
    destruct H as (h1 & h2 & E & Hh1 & Hh2). rewrite E in Hin. destruct (wall_of_01 (hit_direction h)) as [W|W]; rewrite W in Hh1, Hh2; cbn [Nat.sub] in Hh2;
    destruct Hin as [X|[X|[]]]; rewrite X in Hh1 || rewrite X in Hh2; do 3 eexists; (split; [|split; [|eassumption]]); auto; lra.
Qed.

(** ** Streaming succeeds *)
Lemma chan_stream (dt : R) z hs bc f m_time : (forall h, In h hs -> exists s d X, (s = 0 \/ s = 1)%nat /\ 3 <= X <= 7 /\ is_hit (hit_direction h) s d X h) ->
  exists f', operate C4 e9 w9 cs9 opp9 bc m_time [tt] (hit_list C4 same1 keep1 hs) (multiply z f) = Ok f' /\
    stream C4 e9 w9 cs9 opp9 dt bc z (hit_list C4 same1 keep1 hs) [tt] (f, m_time) = Ok (f', m_time + dt).
Proof.
  intros H. destruct (operate_total C4 e9 w9 cs9 opp9 same1 keep1 bc keep1_ok m_time hs [tt] (multiply z f)) as [f' E].
  { intros [] h Hh. destruct (H h Hh) as (s & d & X & Hs & HX & Hi). destruct (hit_getPoint walls4 _ _ _ _ _ Hi ltac:(lra) Hs) as (u & Eu & _); [apply stable_mid; lra|].
    exists u. exact Eu. }
  exists f'. split; [exact E|]. unfold stream. rewrite E. reflexivity.
Qed.

Lemma hits1_range h : (1 <= hit_direction h < 9)%nat -> is_hit (hit_direction h) (wall_of (hit_direction h)) (1 / 2) (5 - e9 (hit_direction h) 0%nat / 2) h ->
  exists s d X, (s = 0 \/ s = 1)%nat /\ 3 <= X <= 7 /\ is_hit (hit_direction h) s d X h.
Proof. intros Ha H. destruct (e9_cases _ Ha) as (_ & Hx & _). do 3 eexists. split; [apply (wall_of_01 (hit_direction h))|]. split; [|exact H]. lra. Qed.

(** ** A fluid that moves with its walls *)
Definition drift : point := fun i => if Nat.eqb i 0 then 1 / 10 else 0.
Definition moving9 (a : nat) : R := w9 a * (1 + dot 2 drift (e9 a) / cs9).
Lemma moving9_ok a : (1 <= a < 9)%nat -> moving9 (opp9 a) + exchange 2 e9 w9 cs9 a drift = moving9 a /\ Rabs (moving9 a) <= 1.
Proof.
  intros Ha. destruct (e9_cases a Ha) as (_ & Hx & Hopp). assert (O0 := Hopp 0%nat ltac:(lia)). assert (O1 := Hopp 1%nat ltac:(lia)).
  rewrite exchange9. unfold moving9. rewrite cs9_val, (w9_opp a Ha). unfold dot. cbn [sumf drift Nat.eqb]. rewrite O0, O1. split; [field|].
  assert (W : 0 <= w9 a <= 4 / 36). { rewrite (w9_val a Ha). destruct a as [|a]; [lia|]. do 8 (destruct a as [|a]; [cbn; lra|]). lia. }
  rewrite Rabs_pos_eq; [nra|]. apply Rmult_le_pos; [lra|]. unfold drift. cbn [Nat.eqb]. lra.
Qed.

Lemma moving_setting (dt : R) z hs : assemble C4 e9 opp9 dt 1 mid dofs1 9 one_shape [tt] = Some (Ok z) ->
  all_hits C4 e9 opp9 dt 1 mid dofs1 9 [tt] = Some (Ok hs) ->
  (forall h, In h hs -> exists s d X, (s = 0 \/ s = 1)%nat /\ 3 <= X <= 7 /\ is_hit (hit_direction h) s d X h) ->
  exists f', wall_setting C4 e9 w9 cs9 opp9 dt 1 mid dofs1 9 one_shape [tt] same1 keep1 (fun _ => VelocityBB (fun _ _ => drift)) drift moving9 1 0 f' (0 + dt) z hs.
Proof.
  intros HA HH Hh. destruct (chan_stream dt z hs (fun _ => VelocityBB (fun _ _ => drift)) (fun a _ => moving9 a) 0 Hh) as (f' & _ & HS).
  exists f'. destruct walls4_ok as (W1 & W2 & W3). unfold wall_setting. split; [exact W1|]. split; [exact W2|]. split; [exact opposites9|]. split; [exact shape1_ok|].
  split; [exact keep1_ok|]. split; [exact same1_ok|]. split; [exact W3|]. split; [reflexivity|]. split; [exact HA|]. split; [exact HH|].
  split; [intros a Ha; exact (proj2 (moving9_ok a Ha))|]. exact HS.
Qed.

Lemma moving_example : exists f' z hs, wall_setting C4 e9 w9 cs9 opp9 1 1 mid dofs1 9 one_shape [tt] same1 keep1 (fun _ => VelocityBB (fun _ _ => drift)) drift moving9 1 0 f' (0 + 1) z hs /\
  none_dropped C4 e9 opp9 1 9 1 mid [tt] /\ (forall a, (1 <= a < 9)%nat -> moving9 (opp9 a) + exchange 2 e9 w9 cs9 a drift = moving9 a) /\
  (forall a, (1 <= a < 9)%nat -> (length (hits_for a 0 hs) <= 1)%nat) /\ length (hits_for 5 0 hs) = 1%nat.
Proof.
  destruct chan1 as (z & hs & HA & HH & Hfor & Hnd & Hh & _).
  destruct (moving_setting 1 z hs HA HH) as [f' HS]. { intros h Hin. destruct (Hh h Hin) as [Ha Hi]. exact (hits1_range h Ha Hi). }
  exists f', z, hs. split; [exact HS|]. split; [exact Hnd|]. split; [intros a Ha; exact (proj1 (moving9_ok a Ha))|]. split.
  - intros a Ha. assert (H := Hfor a Ha). unfold hits1 in H. destruct (Req_EM_T _ 0); [rewrite H; cbn; lia|]. destruct H as (h & -> & _). cbn. lia.
  - assert (H := Hfor 5%nat ltac:(lia)). unfold hits1 in H. assert (V := e9_val 5 ltac:(lia)). cbn [nth] in V. injection V as _ V. rewrite V in H.
    destruct (Req_EM_T 1 0) as [N|_]; [lra|]. destruct H as (h & -> & _). reflexivity.
Qed.

Lemma moving_refuted : exists f' z hs, wall_setting C4 e9 w9 cs9 opp9 2 1 mid dofs1 9 one_shape [tt] same1 keep1 (fun _ => VelocityBB (fun _ _ => drift)) drift moving9 1 0 f' (0 + 2) z hs /\
  none_dropped C4 e9 opp9 2 9 1 mid [tt] /\ (forall a, (1 <= a < 9)%nat -> moving9 (opp9 a) + exchange 2 e9 w9 cs9 a drift = moving9 a) /\
  moving9 5%nat + 1 / 31 <= f' 5%nat 0%nat.
Proof.
  destruct chan2 as (z & hs & HA & HH & Hfor & Hnd & Hh).
  destruct (moving_setting 2 z hs HA HH) as [f' HS]. { intros h Hin. exact (proj2 (Hh h Hin)). }
  exists f', z, hs. split; [exact HS|]. split; [exact Hnd|]. split; [intros a Ha; exact (proj1 (moving9_ok a Ha))|].
  destruct HS as (H1 & H2 & H3 & H4 & H5 & H6 & H7 & H8 & H9 & H10 & H11 & H12).
  destruct (uniform_stream C4 e9 w9 cs9 opp9 2 1 mid dofs1 9 one_shape [tt] same1 keep1 _ drift moving9 1 0 f' (0 + 2) z hs
    H1 H2 H3 H4 H5 H6 H7 H8 H9 H10 H11 H12 5 tt 0 ltac:(lia) (or_introl eq_refl) ltac:(lia)) as [A|[A _]]; [|contradiction].
  assert (H := Hfor 5%nat ltac:(lia)). unfold hits2 in H. assert (V := e9_val 5 ltac:(lia)). cbn [nth] in V. injection V as V0 V. rewrite V in H.
  destruct (Req_EM_T 1 0) as [N|_]; [lra|]. destruct H as (h & h' & E & _).
  assert (A' : Rabs (f' 5%nat 0%nat - (moving9 5%nat + 2 * exchange 2 e9 w9 cs9 5 drift)) <= tol).
  { rewrite E in A. change (Nat.iter (length [h; h']) opp9 5%nat) with 5%nat in A. cbn [length dim chan INR] in A. rewrite Rmult_1_l, Rmult_1_r in A.
    replace 2 with (1 + 1) at 1 by ring. exact A. }
  rewrite exchange9, V0, V, (w9_val 5) in A' by lia. unfold drift in A'. cbn [nth Nat.eqb] in A'. unfold tol in A'.
  apply Rabs_le_inv in A'. lra.
Qed.
