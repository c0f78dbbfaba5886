(** Witnesses in the channel: where and when the wall velocity is evaluated. *)
From Coq Require Import Permutation.
From Verif Require Import Prelude BigSum ModelStencils ModelSemiLagrangian SpecSemiLagrangian ProofSemiLagrangian ProofSemiLagrangian2
  ProofSemiLagrangian3 ProofSemiLagrangian4 ProofSemiLagrangian5 ModelWalls SpecWalls ProofWalls ProofWalls2 ProofWalls3 ProofWalls4 ProofWalls6 ProofWalls7 ProofWalls8.
Local Open Scope R_scope.

(** Wall velocity growing along the wall; growing in time. *)
Definition stretching (t : R) (x : point) : point := fun i => if Nat.eqb i 0 then x 0%nat else 0.
Definition speeding (t : R) (x : point) : point := fun i => if Nat.eqb i 0 then t else 0.

Lemma e9_8 : e9 8 0%nat = 1 /\ e9 8 1%nat = -1.
Proof. assert (V := e9_val 8 ltac:(lia)). cbn [nth] in V. injection V as V0 V. auto. Qed.
Lemma e9_2 : e9 2 0%nat = 0 /\ e9 2 1%nat = 1.
Proof. assert (V := e9_val 2 ltac:(lia)). cbn [nth] in V. injection V as V0 V. auto. Qed.
Lemma hits1_8 hs : hits1 8 (hits_for 8 0 hs) -> exists h, hits_for 8 0 hs = [h] /\ is_hit 8 1 (1 / 2) (9 / 2) h.
Proof.
  unfold hits1, wall_of. destruct e9_8 as [-> ->]. destruct (Req_EM_T (-1) 0) as [N|_]; [lra|]. destruct (Rlt_dec 0 (-1)) as [N|_]; [lra|].
  replace (5 - 1 / 2) with (9 / 2) by lra. auto.
Qed.

Lemma first_setting : exists f' z hs (h2 : hit unit) u,
  all_hits C4 e9 opp9 1 1 mid dofs1 9 [tt] = Some (Ok hs) /\ assemble C4 e9 opp9 1 1 mid dofs1 9 one_shape [tt] = Some (Ok z) /\
  operate C4 e9 w9 cs9 opp9 (fun _ => VelocityBB stretching) 0 [tt] (hit_list C4 same1 keep1 hs) (multiply z (fun _ _ => 0)) = Ok f' /\
  stream C4 e9 w9 cs9 opp9 1 (fun _ => VelocityBB stretching) z (hit_list C4 same1 keep1 hs) [tt] (fun _ _ => 0, 0) = Ok (f', 0 + 1) /\
  (forall h, In h hs -> In (hit_cell h) [tt]) /\
  (forall c h r, In c [tt] -> List.filter (fun h => same1 (hit_cell h) c) hs = h :: r -> hit_point h = hit_point h2) /\
  (forall h, In h hs -> hit_point h = hit_point h2 \/ tol <= dist (dim C4) (hit_point h) (hit_point h2)) /\
  (forall c v, In c [tt] -> getPoint C4 c (hit_point h2) = Ok v -> u = v) /\ u 0%nat = 1 / 2 /\
  (exists h, hits_for 8 0 hs = [h] /\ is_hit 8 1 (1 / 2) (9 / 2) h).
Proof.
  destruct chan1 as (z & hs & HA & HH & Hfor & Hnd & Hh & (h2 & r & Ehs & Hd2 & Hr)).
  destruct (chan_stream 1 z hs (fun _ => VelocityBB stretching) (fun _ _ => 0) 0) as (f' & HO & HS).
  { intros h Hin. destruct (Hh h Hin) as [Ha Hi]. exact (hits1_range h Ha Hi). }
  assert (I2 : is_hit 2 0 (1 / 2) 5 h2).
  { destruct (Hh h2) as [_ I]; [rewrite Ehs; left; reflexivity|]. rewrite Hd2 in I. unfold wall_of in I. destruct e9_2 as [E0 E1]. rewrite E0, E1 in I.
    destruct (Rlt_dec 0 1) as [_|N]; [|lra]. replace (5 - 0 / 2) with 5 in I by lra. exact I. }
  destruct (hit_getPoint walls4 _ _ _ _ _ I2 ltac:(lra) (or_introl eq_refl)) as (u & Eu & U0 & U1); [apply stable_mid; lra|].
  exists f', z, hs, h2, u. split; [exact HH|]. split; [exact HA|]. split; [exact HO|]. split; [exact HS|].
  split; [intros h _; destruct (hit_cell h); left; reflexivity|]. split; [|split; [|split; [|split]]].
  - intros c h r' _ Hf. rewrite Ehs in Hf. cbn [List.filter] in Hf. injection Hf as <- _. reflexivity.
  - intros h Hin. rewrite Ehs in Hin. destruct Hin as [<-|Hin]; [left; reflexivity|]. right.
    assert (Ha := Hh h ltac:(rewrite Ehs; right; exact Hin)). destruct Ha as [Ha Hi].
    assert (Hn2 := Hr h Hin). set (a := hit_direction h) in *. destruct Hi as (_ & _ & X1 & Y1 & _). destruct I2 as (_ & _ & X2 & Y2 & _).
    assert (D : 1 / 4 <= (hit_point h 0%nat - hit_point h2 0%nat) * (hit_point h 0%nat - hit_point h2 0%nat) +
      (hit_point h 1%nat - hit_point h2 1%nat) * (hit_point h 1%nat - hit_point h2 1%nat)).
    { rewrite X1, Y1, X2, Y2. assert (V := e9_val a Ha). clear -V Ha Hn2. destruct a as [|a]; [lia|].
      do 8 (destruct a as [|a]; [try lia; cbn [nth] in V; injection V as V0 V1; unfold wall_of; rewrite V0, V1; destruct (Rlt_dec _ _); try lra; cbn [INR]; lra|]). lia. }
    unfold dist, dot. cbn [dim chan sumf]. apply Rle_trans with (sqrt (1 / 4)).
    + apply Rsqr_incr_0; [|unfold tol; lra|apply sqrt_pos]. rewrite Rsqr_sqrt by lra. unfold Rsqr, tol. lra.
    + apply sqrt_le_1_alt. lra.
  - intros [] u' _ E. rewrite Eu in E. injection E as <-. reflexivity.
  - rewrite U0. lra.
  - exact (hits1_8 hs (Hfor 8%nat ltac:(lia))).
Qed.

Lemma place_refuted : exists f' z hs,
  all_hits C4 e9 opp9 1 1 mid dofs1 9 [tt] = Some (Ok hs) /\ assemble C4 e9 opp9 1 1 mid dofs1 9 one_shape [tt] = Some (Ok z) /\
  stream C4 e9 w9 cs9 opp9 1 (fun _ => VelocityBB stretching) z (hit_list C4 same1 keep1 hs) [tt] (fun _ _ => 0, 0) = Ok (f', 0 + 1) /\
  f' 8%nat 0%nat <> multiply z (fun _ _ => 0) 8%nat 0%nat +
    sum_over (fun h => exchange 2 e9 w9 cs9 8 (stretching (0 - hit_dt h) (hit_point h))) (hits_for 8 0 hs).
Proof.
  destruct first_setting as (f' & z & hs & h2 & u & HH & HA & HO & HS & Hc & H1 & H2 & H3 & U0 & (h & E & I8)).
  exists f', z, hs. split; [exact HH|]. split; [exact HA|]. split; [exact HS|].
  rewrite (first_hit_walls C4 e9 w9 cs9 opp9 same1 keep1 (fun _ => VelocityBB stretching) (fun _ => stretching) keep1_ok 0 [tt] hs (multiply z (fun _ _ => 0)) f'
    (fun _ => hit_point h2) 8 0 same1_ok (proj2 (proj2 walls4_ok)) Hc ltac:(reflexivity) H1 H2 HO (fun _ => u) H3).
  rewrite E. cbn [sum_over fold_right dim chan]. rewrite !exchange9.
  destruct e9_8 as [E0 E1]. rewrite E0, E1, (w9_val 8) by lia. unfold stretching. cbn [nth Nat.eqb]. destruct I8 as (_ & _ & -> & _). rewrite U0. lra.
Qed.

Lemma time_refuted : exists f' z hs,
  all_hits C4 e9 opp9 1 1 mid dofs1 9 [tt] = Some (Ok hs) /\ assemble C4 e9 opp9 1 1 mid dofs1 9 one_shape [tt] = Some (Ok z) /\
  stream C4 e9 w9 cs9 opp9 1 (fun _ => VelocityBB speeding) z (hit_list C4 same1 keep1 hs) [tt] (fun _ _ => 0, 0) = Ok (f', 0 + 1) /\
  (exists h, hits_for 8 0 hs = [h] /\ hit_dt h = 1 / 2) /\
  f' 8%nat 0%nat <> multiply z (fun _ _ => 0) 8%nat 0%nat +
    sum_over (fun h => exchange 2 e9 w9 cs9 8 (speeding (0 + 1 - hit_dt h) (hit_point h))) (hits_for 8 0 hs).
Proof.
  destruct chan1 as (z & hs & HA & HH & Hfor & Hnd & Hh & _).
  destruct (chan_stream 1 z hs (fun _ => VelocityBB speeding) (fun _ _ => 0) 0) as (f' & HO & HS).
  { intros h Hin. destruct (Hh h Hin) as [Ha Hi]. exact (hits1_range h Ha Hi). }
  exists f', z, hs. split; [exact HH|]. split; [exact HA|]. split; [exact HS|].
  destruct (hits1_8 hs (Hfor 8%nat ltac:(lia))) as (h & E & I8).
  split; [exists h; split; [exact E|]; exact (proj1 (proj2 I8))|].
  rewrite (uniform_walls C4 e9 w9 cs9 opp9 same1 keep1 (fun _ => VelocityBB speeding) (fun _ => speeding) keep1_ok 0 [tt] hs (multiply z (fun _ _ => 0)) f'
    (fun _ s => speeding s (fun _ => 0)) 8 0 same1_ok (proj2 (proj2 walls4_ok))); [|intros g _; destruct (hit_cell g); left; reflexivity|reflexivity|reflexivity|exact HO].
  rewrite E. cbn [sum_over fold_right dim chan]. rewrite !exchange9.
  destruct e9_8 as [E0 E1]. rewrite E0, E1, (w9_val 8) by lia. unfold speeding. cbn [nth Nat.eqb]. destruct I8 as (_ & -> & _). lra.
Qed.
