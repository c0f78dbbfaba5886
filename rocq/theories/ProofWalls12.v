(** Further examples in the channel; the channel is straight. *)
From Verif Require Import Prelude BigSum ModelStencils ModelSemiLagrangian SpecSemiLagrangian ProofSemiLagrangian ProofSemiLagrangian2
  ProofSemiLagrangian3 ProofSemiLagrangian4 ProofSemiLagrangian5 ModelWalls SpecWalls ProofWalls ProofWalls2 ProofWalls3 ProofWalls4
  ProofWalls6 ProofWalls7 ProofWalls8 ProofWalls9.
Local Open Scope R_scope.

Lemma crossed_inside D pi po k : crossed_unit D pi po = Ok (Some k) -> nearly_inside D pi.
Proof.
  unfold crossed_unit. destruct (all_inside D (snap_point pi)) eqn:A; [|discriminate]. intros _. apply all_inside_iff in A.
  intros i Hi. assert (H := A i Hi). unfold snap_point in H. apply snap_inside in H. unfold tol in H. exact H.
Qed.
Lemma chan_straight kind : straight_within (chan kind) (3 / 10 ^ 9).
Proof.
  intros c x y k H. unfold findFace, faceCrossedFirst in H. cbn [to_unit chan dim] in H.
  set (pi := fun i => x i / width i) in H. set (po := fun i => y i / width i) in H.
  destruct (crossed_unit 2 pi po) as [r| |] eqn:E; try discriminate. cbn [obind] in H. destruct r as [k'|]; [|discriminate]. cbn [option_map obind] in H.
  injection H as <-. destruct (crossed_unit_spec 2 pi po ltac:(lia) (crossed_inside _ _ _ _ E)) as (r & E' & _ & Hk). rewrite E in E'. injection E' as <-.
  destruct (Hk k' eq_refl) as (_ & _ & _ & _ & _ & _ & _ & Hl & Hp & _). exists (cr_lambda k'). split; [exact Hl|]. cbn [cr_point to_real chan dim].
  assert (H0 := Hp 0%nat ltac:(lia)). assert (H1 := Hp 1%nat ltac:(lia)). unfold along, pi, po, width in H0, H1. cbn [Nat.eqb] in H0, H1.
  apply Rabs_def2 in H0. apply Rabs_def2 in H1. unfold dist, dot. cbn [sumf]. unfold width. cbn [Nat.eqb]. set (l := cr_lambda k') in *.
  set (a := cr_point k' 0%nat * 10 - (x 0%nat + l * (y 0%nat - x 0%nat))). set (b := cr_point k' 1%nat * 1 - (x 1%nat + l * (y 1%nat - x 1%nat))).
  assert (A : - (2 / 10 ^ 9) <= a <= 2 / 10 ^ 9) by (unfold a; lra). assert (B : - (2 / 10 ^ 9) <= b <= 2 / 10 ^ 9) by (unfold b; lra).
  rewrite <- (sqrt_Rsqr (3 / 10 ^ 9)) by lra. apply sqrt_le_1_alt. unfold Rsqr. nra.
Qed.
Lemma e9_norm kind a : (1 <= a < 9)%nat -> 0 < norm (chan kind) (e9 a) /\ norm (chan kind) (e9 (opp9 a)) = norm (chan kind) (e9 a).
Proof.
  intros Ha. destruct (e9_cases a Ha) as (Hc & Hx & Hopp). unfold norm, dot. cbn [dim chan sumf]. rewrite !Hopp by lia. split; [|f_equal; ring].
  apply sqrt_lt_R0. destruct Hc as [[Hc1 Hc2]|Hc]; [rewrite Hc1; destruct Hc2 as [-> | ->]; lra|]. destruct Hc as [Hc|Hc]; rewrite Hc; nra.
Qed.
Lemma time_example : 0 <= 2 /\ rigid C4 /\ straight_within C4 (3 / 10 ^ 9) /\ opposites 9 opp9 /\
  (forall a, (1 <= a < 9)%nat -> 0 < norm C4 (e9 a) /\ norm C4 (e9 (opp9 a)) = norm C4 (e9 a)) /\
  exists hs h h', all_hits C4 e9 opp9 2 1 mid dofs1 9 [tt] = Some (Ok hs) /\ hits_for 5 0 hs = [h; h'] /\ hit_dt h = 1 / 2 /\ hit_dt h' = 3 / 2.
Proof.
  split; [lra|]. split; [intros c f; exact I|]. split; [apply chan_straight|]. split; [exact opposites9|]. split; [apply e9_norm|].
  destruct chan2 as (z & hs & _ & HH & Hfor & _). exists hs. assert (H := Hfor 5%nat ltac:(lia)). unfold hits2 in H.
  assert (V := e9_val 5 ltac:(lia)). cbn [nth] in V. injection V as V0 V. rewrite V in H. destruct (Req_EM_T 1 0) as [N|_]; [lra|].
  destruct H as (h & h' & E & (_ & T & _) & (_ & T' & _)). exists h, h'. auto.
Qed.

(** A fluid at rest, two hits per path. *)
Lemma rest_example : exists f' z hs, wall_setting C4 e9 w9 cs9 opp9 2 1 mid dofs1 9 one_shape [tt] same1 keep1 (fun _ => VelocityBB (fun _ _ _ => 0)) (fun _ => 0) w9 1 0 f' (0 + 2) z hs /\
  (forall a, (1 <= a < 9)%nat -> w9 (opp9 a) = w9 a /\ exchange 2 e9 w9 cs9 a (fun _ => 0) = 0) /\ length (hits_for 5 0 hs) = 2%nat.
Proof.
  destruct chan2 as (z & hs & HA & HH & Hfor & Hnd & Hh).
  destruct (chan_stream 2 z hs (fun _ => VelocityBB (fun _ _ _ => 0)) (fun a _ => w9 a) 0) as (f' & _ & HS). { intros h Hin. exact (proj2 (Hh h Hin)). }
  exists f', z, hs. split; [|split].
  - destruct walls4_ok as (W1 & W2 & W3). unfold wall_setting. split; [exact W1|]. split; [exact W2|]. split; [exact opposites9|]. split; [exact shape1_ok|].
    split; [exact keep1_ok|]. split; [exact same1_ok|]. split; [exact W3|]. split; [reflexivity|]. split; [exact HA|]. split; [exact HH|].
    split; [|exact HS]. intros a Ha. rewrite (w9_val a Ha). destruct a as [|a]; [lia|]. do 8 (destruct a as [|a]; [cbn [nth]; rewrite Rabs_pos_eq; lra|]). lia.
  - intros a Ha. split; [exact (w9_opp a Ha)|]. rewrite exchange9. ring.
  - assert (H := Hfor 5%nat ltac:(lia)). unfold hits2 in H. assert (V := e9_val 5 ltac:(lia)). cbn [nth] in V. injection V as V0 V. rewrite V in H.
    destruct (Req_EM_T 1 0) as [N|_]; [lra|]. destruct H as (h & h' & -> & _). reflexivity.
Qed.

(** The statements about single operations, with the hits of the channel. *)
Lemma operate_example : exists f' z hs, all_hits C4 e9 opp9 1 1 mid dofs1 9 [tt] = Some (Ok hs) /\ keeps_order keep1 /\ decides same1 /\ NoDup [tt] /\
  (forall h, In h hs -> In (hit_cell h) [tt]) /\ length (hits_for 8 0 hs) = 1%nat /\
  operate C4 e9 w9 cs9 opp9 (fun _ => VelocityBB speeding) 0 [tt] (hit_list C4 same1 keep1 hs) (multiply z (fun _ _ => 0)) = Ok f'.
Proof.
  destruct chan1 as (z & hs & HA & HH & Hfor & Hnd & Hh & _).
  destruct (chan_stream 1 z hs (fun _ => VelocityBB speeding) (fun _ _ => 0) 0) as (f' & HO & HS).
  { intros h Hin. destruct (Hh h Hin) as [Ha Hi]. exact (hits1_range h Ha Hi). }
  exists f', z, hs. split; [exact HH|]. split; [exact keep1_ok|]. split; [exact same1_ok|]. split; [exact (proj2 (proj2 walls4_ok))|].
  split; [intros h _; destruct (hit_cell h); left; reflexivity|]. split; [|exact HO].
  destruct (hits1_8 hs (Hfor 8%nat ltac:(lia))) as (h & -> & _). reflexivity.
Qed.
