(** C160: the relaxation time and the velocity of the static droplet program (static_droplet.cpp). *)
From Verif Require Import Prelude ModelStencils ModelConfigNames ModelCollision ModelOldCollision ModelMultiphase ModelDroplet ProofDroplet.
Local Open Scope R_scope.

(** The program takes a relaxation time in units of time steps (0.5 is viscosity zero); a step of the collision
    relaxes by the fraction 1 / tau, which is minus the prefactor. *)

(** The fraction is another one: with the default refinement a droplet asked for with tau = 1 is run with 4.5. *)
Theorem C160_tau_refuted : exists a tau m,
  nth_error a 1 = Some tau /\ droplet_program a = Ok m /\ atof tau = 1 /\ om_prefactor m = - 1 / (9/2).
Proof.
  exists [mkArgument (-5) (-5); mkArgument 1 1], (mkArgument 1 1).
  destruct (program_ok (mkArgument (-5) (-5)) (mkArgument 1 1) 3 4 [] _ eq_refl eq_refl eq_refl) as (m & E & T & _ & P);
    [lia|lia|cbn; lra|cbn; lra|].
  exists m. split; [reflexivity|]. split; [exact E|]. split; [reflexivity|]. rewrite P, T.
  change (Z.to_nat 3) with 3%nat. cbn [atof pow]. f_equal. lra.
Qed.
Print Assumptions C160_tau_refuted.

(** For all command lines the program accepts: the relaxation time of the run, and that it is the one on the command
    line exactly if the mesh is not refined. *)
Theorem C160_tau_partial : forall a m, droplet_program a = Ok m ->
  exists tau, nth_error a 1 = Some tau /\ 1/2 < atof tau /\
    let N := match nth_error a 2 with Some x => atoi x | None => 3%Z end in
    (0 <= N)%Z /\ om_prefactor m = - 1 / (1/2 + (atof tau - 1/2) * 2 ^ Z.to_nat N) /\
    (om_prefactor m = - 1 / atof tau <-> N = 0%Z).
Proof.
  intros a m E. destruct (program_inv a m E) as (G & tau & rest & Ea & N0 & P1 & T & G0). exists tau.
  split; [rewrite Ea; reflexivity|]. split; [exact T|].
  destruct (program_ok G tau _ _ rest a Ea eq_refl eq_refl N0 P1 T G0) as (m' & E' & Tm & _ & P).
  assert (m' = m) by congruence. subst m'. change (match nth_error a 2 with Some x => atoi x | None => 3%Z end) with (optional a 2 3).
  set (N := optional a 2 3) in *. split; [exact N0|]. rewrite P, Tm. assert (Q := pow2_pos (Z.to_nat N)).
  split; [f_equal; ring|]. split.
  - intros H. destruct (Z.eq_dec N 0) as [|F]; [assumption|exfalso].
    assert (B : 2 <= 2 ^ Z.to_nat N).
    { destruct (Z.to_nat N) as [|k] eqn:K; [lia|]. cbn [pow]. assert (1 <= 2 ^ k) by (apply pow_R1_Rle; lra). lra. }
    set (K := 2 ^ Z.to_nat N) in *. clearbody K. set (t := atof tau) in *. clearbody t.
    assert (X : (t - 1/2) * K + 1/2 = t).
    { assert (0 < (t - 1/2) * K) by (apply Rmult_lt_0_compat; lra).
      apply (f_equal (fun z => z * (((t - 1/2) * K + 1/2) * t))) in H. field_simplify in H; lra. }
    nra.
  - intros ->. cbn [Z.to_nat pow]. f_equal. ring.
Qed.
Print Assumptions C160_tau_partial.

Example C160_unrefined : exists m,
  droplet_program [mkArgument (-5) (-5); mkArgument 1 1; mkArgument 0 0; mkArgument 2 2] = Ok m /\ om_prefactor m = - 1 / 1.
Proof.
  destruct (program_ok (mkArgument (-5) (-5)) (mkArgument 1 1) 0 2 [mkArgument 0 0; mkArgument 2 2] _ eq_refl eq_refl eq_refl)
    as (m & E & T & _ & P); [lia|lia|cbn; lra|cbn; lra|].
  exists m. split; [exact E|]. rewrite P, T. cbn [atof Z.to_nat pow]. f_equal. lra.
Qed.

(** All command lines with relaxation time above 0.5, non-zero G, admissible level and order are accepted. *)
Theorem C160_accepted : forall G tau rest, 1/2 < atof tau -> atof G <> 0 ->
  match rest with x :: _ => (0 <= atoi x)%Z | [] => True end ->
  match rest with _ :: x :: _ => (1 <= atoi x)%Z | _ => True end ->
  exists m, droplet_program (G :: tau :: rest) = Ok m.
Proof.
  intros G tau rest T G0 A B.
  destruct (program_ok G tau (optional (G :: tau :: rest) 2 3) (optional (G :: tau :: rest) 3 4) rest _ eq_refl eq_refl eq_refl) as (m & E & _).
  - destruct rest; cbn in *; lia.
  - destruct rest as [|? [|? ?]]; cbn in *; lia.
  - exact T.
  - exact G0.
  - exists m. exact E.
Qed.
Print Assumptions C160_accepted.

(** One argument passes the check of the number of arguments; the second is then read all the same. *)
Theorem C160_arguments_refuted : forall g, droplet_program [] = Throw /\ droplet_program [g] = UB.
Proof. intros g. split; reflexivity. Qed.
Print Assumptions C160_arguments_refuted.

(** The velocity printed is the largest magnitude of the mean of the velocities before and after the collision. *)
Theorem C160_velocity : forall before after, length before = length after -> before <> [] ->
  let magnitude (u w : R * R) := sqrt (((fst u + fst w) / 2) ^ 2 + ((snd u + snd w) / 2) ^ 2) in
  (forall k u w, nth_error before k = Some u -> nth_error after k = Some w -> magnitude u w <= printed_velocity before after) /\
  (exists k u w, nth_error before k = Some u /\ nth_error after k = Some w /\ magnitude u w = printed_velocity before after).
Proof.
  intros before after L NE magnitude. unfold printed_velocity. rewrite map_map.
  set (sq := fun q : (R * R) * (R * R) => _).
  assert (S : forall u w, sq (u, w) = ((fst u + fst w) / 2) ^ 2 + ((snd u + snd w) / 2) ^ 2).
  { intros u w. unfold sq, average. cbn [fst snd]. field. }
  assert (P : forall u w, 0 <= sq (u, w)).
  { intros u w. rewrite S. apply Rplus_le_le_0_compat; apply pow2_ge_0. }
  assert (C : forall k u w, nth_error before k = Some u -> nth_error after k = Some w -> nth_error (combine before after) k = Some (u, w)).
  { clear. revert after. induction before as [|x before IH]; intros [|y after] [|k] u w A B; cbn in *; try discriminate.
    - congruence.
    - apply IH; assumption. }
  assert (D : forall k u w, nth_error (combine before after) k = Some (u, w) -> nth_error before k = Some u /\ nth_error after k = Some w).
  { clear. revert after. induction before as [|x before IH]; intros [|y after] [|k] u w A; cbn in *; try discriminate.
    - injection A as -> ->. split; reflexivity.
    - apply IH; assumption. }
  split.
  - intros k u w A B. unfold magnitude. rewrite <- S. apply sqrt_le_1_alt. rewrite <- (Rabs_right (sq (u, w))) by (apply Rle_ge, P).
    apply norm_bound. apply in_map. eapply nth_error_In. apply (C k); assumption.
  - destruct (norm_attained (map sq (combine before after))) as (x & I & E).
    + destruct before; [contradiction|]. destruct after; [discriminate|]. discriminate.
    + apply in_map_iff in I. destruct I as ([u w] & <- & I). apply In_nth_error in I. destruct I as [k I].
      destruct (D k u w I) as [A B]. exists k, u, w. split; [exact A|]. split; [exact B|]. rewrite E. unfold magnitude. rewrite <- S.
      rewrite Rabs_right by (apply Rle_ge, P). reflexivity.
Qed.
Print Assumptions C160_velocity.

Example C160_velocity_example : printed_velocity [(1, 0); (3, 4)] [(-1, 0); (3, 4)] = 5.
Proof.
  unfold printed_velocity, average. cbn [combine map fst snd linfty_norm fold_right].
  replace ((1 + -1) * (1 / 2) * ((1 + -1) * (1 / 2)) + (0 + 0) * (1 / 2) * ((0 + 0) * (1 / 2))) with 0 by field.
  replace ((3 + 3) * (1 / 2) * ((3 + 3) * (1 / 2)) + (4 + 4) * (1 / 2) * ((4 + 4) * (1 / 2))) with 25 by field.
  rewrite Rabs_R0, (Rabs_right 25) by lra. rewrite (Rmax_left 25 0) by lra. rewrite Rmax_right by lra.
  replace 25 with (5 * 5) by ring. apply sqrt_square. lra.
Qed.
