From Verif Require Import Prelude ModelStencils ModelConfigNames ModelCollision ModelOldCollision ModelMultiphase ModelDroplet.
From Verif Require ModelCommandLine.
Local Open Scope R_scope.

Lemma min_const : forall h n d, h <= d -> fold_left (fun d h => if Rlt_dec h d then h else d) (repeat h n) d = match n with O => d | _ => h end.
Proof.
  intros h n. induction n as [|n IH]; intros d L; [reflexivity|]. cbn [repeat fold_left].
  destruct (Rlt_dec h d) as [A|A].
  - rewrite IH by lra. destruct n; reflexivity.
  - assert (E : d = h) by lra. rewrite E, IH by lra. destruct n; reflexivity.
Qed.

Lemma split_const : forall h n, flat_map (fun h => [h / 2; h / 2; h / 2; h / 2]) (repeat h n) = repeat (h / 2) (n * 4).
Proof. intros h n. induction n as [|n IH]; [reflexivity|]. cbn [repeat flat_map]. rewrite IH. reflexivity. Qed.

Lemma refined : forall N h n, exists k, refine_global N (repeat h (S n)) = repeat (h / 2 ^ N) (S k).
Proof.
  induction N as [|N IH]; intros h n.
  - exists n. cbn [refine_global pow]. f_equal. field.
  - cbn [refine_global]. rewrite split_const. destruct (IH (h / 2) (3 + n * 4)%nat) as [k E].
    exists k. replace (S n * 4)%nat with (S (3 + n * 4)) by lia. rewrite E. f_equal. cbn [pow]. field. apply pow_nonzero. lra.
Qed.

Lemma pow2_pos : forall N, 0 < 2 ^ N.
Proof. intros. apply pow_lt. lra. Qed.

Lemma spacing : forall N, getMinimumVertexDistance (refine_global N (makeGrid 1 1)) = 1 / 2 ^ N.
Proof.
  intros N. unfold makeGrid. replace [Rmin 1 1] with (repeat 1 1) by (cbn; rewrite Rmin_left by lra; reflexivity).
  destruct (refined N 1 0) as [k E]. rewrite E. unfold getMinimumVertexDistance. rewrite min_const; [reflexivity|].
  assert (H : 1 <= 2 ^ N) by (apply pow_R1_Rle; lra).
  apply Rle_trans with 1; [|lra]. apply Rmult_le_reg_r with (2 ^ N); [lra|]. unfold Rdiv. rewrite Rmult_assoc, Rinv_l by lra. lra.
Qed.

Lemma program_ok : forall G tau N p rest a, a = G :: tau :: rest ->
  N = optional a 2 3 -> p = optional a 3 4 -> (0 <= N)%Z -> (1 <= p)%Z -> 1/2 < atof tau -> atof G <> 0 ->
  exists m, droplet_program a = Ok m /\ om_tau m = (atof tau - 1/2) * 2 ^ Z.to_nat N /\
    om_dt m = 8/10 * (1 / 2 ^ Z.to_nat N) / (sqrt 2 * IZR p * IZR p) /\ om_prefactor m = -1 / (om_tau m + 1/2).
Proof.
  intros G tau N p rest a -> HN Hp N0 P1 T G0. unfold droplet_program, read_arguments. cbn [obind].
  rewrite <- HN, <- Hp. destruct (Z.ltb_spec N 0) as [|_]; [lia|]. unfold droplet_viscosity.
  change (makeGrid 1 1) with (refine_global 0 (makeGrid 1 1)) at 1. rewrite !spacing. unfold ModelCommandLine.calculateTimestep.
  destruct (Z.leb_spec 1 p) as [_|]; [|lia]. cbn [obind stencil_of D2Q9 st_maxvel st_cs2].
  assert (P : 1 <= IZR p) by (apply IZR_le; exact P1). assert (S2 : 0 < sqrt 2) by (apply sqrt_lt_R0; lra).
  assert (Q := pow2_pos (Z.to_nat N)). set (K := 2 ^ Z.to_nat N) in *.
  assert (D : 0 < 1 * sqrt 2 * IZR p * IZR p) by (repeat apply Rmult_lt_0_compat; lra).
  assert (D0 : 0 < 8 / 10 * (1 / 2 ^ 0) / (1 * sqrt 2 * IZR p * IZR p)) by (apply Rdiv_lt_0_compat; [cbn; lra|exact D]).
  assert (D1 : 0 < 8 / 10 * (1 / K) / (1 * sqrt 2 * IZR p * IZR p)).
  { apply Rdiv_lt_0_compat; [|exact D]. apply Rmult_lt_0_compat; [lra|]. apply Rdiv_lt_0_compat; lra. }
  destruct (Rlt_dec _ _) as [V|V].
  2:{ exfalso. apply V. apply Rmult_lt_0_compat; [apply Rmult_lt_0_compat; [lra|exact D0]|lra]. }
  cbn [obind]. unfold make_multiphase, calculateRelaxationParameter.
  destruct (Rlt_dec _ _) as [_|W]; [|contradiction]. destruct (Rlt_dec _ _) as [_|W]; [|contradiction].
  cbn [obind]. unfold pp_asserts. cbn [pp_G pp_type]. destruct (Req_EM_T _ _) as [E|_]; [contradiction|].
  eexists. split; [reflexivity|]. cbn [with_force old_new om_tau om_dt om_prefactor stencil_of D2Q9 st_cs2].
  split; [cbn [pow]; field; repeat split; lra|]. split; [|unfold Rdiv; ring]. rewrite !Rmult_1_l. reflexivity.
Qed.

Lemma program_inv : forall a m, droplet_program a = Ok m ->
  exists G tau rest, a = G :: tau :: rest /\ (0 <= optional a 2 3)%Z /\ (1 <= optional a 3 4)%Z /\ 1/2 < atof tau /\ atof G <> 0.
Proof.
  intros a m E. destruct a as [|G [|tau rest]]; try discriminate. exists G, tau, rest. split; [reflexivity|].
  unfold droplet_program in E. cbn [read_arguments obind] in E. set (a := G :: tau :: rest) in *.
  destruct (Z.ltb_spec (optional a 2 3) 0) as [|N0]; [discriminate|]. unfold droplet_viscosity in E.
  unfold ModelCommandLine.calculateTimestep in E. destruct (Z.leb_spec 1 (optional a 3 4)) as [P1|]; [|discriminate].
  cbn [obind] in E. destruct (Rlt_dec _ _) as [V|V]; [|discriminate]. split; [exact N0|]. split; [exact P1|].
  change (makeGrid 1 1) with (refine_global 0 (makeGrid 1 1)) in V. rewrite spacing in V. cbn [stencil_of D2Q9 st_maxvel st_cs2] in V.
  assert (P : 1 <= IZR (optional a 3 4)) by (apply IZR_le; exact P1). assert (S2 : 0 < sqrt 2) by (apply sqrt_lt_R0; lra).
  assert (D : 0 < 1 * sqrt 2 * IZR (optional a 3 4) * IZR (optional a 3 4)) by (repeat apply Rmult_lt_0_compat; lra).
  assert (D0 : 0 < 8 / 10 * (1 / 2 ^ 0) / (1 * sqrt 2 * IZR (optional a 3 4) * IZR (optional a 3 4)))
    by (apply Rdiv_lt_0_compat; [cbn; lra|exact D]).
  split.
  - apply Rnot_le_lt. intros L. revert V. apply Rle_not_lt.
    set (d := _ / (1 * sqrt 2 * _ * _)) in *. clearbody d. nra.
  - intros Z0. cbn [obind] in E. unfold make_multiphase, calculateRelaxationParameter in E.
    destruct (Rlt_dec _ _) as [_|]; [|discriminate]. destruct (Rlt_dec _ _) as [_|]; [|discriminate].
    cbn [obind] in E. unfold pp_asserts in E. cbn [pp_G pp_type] in E. destruct (Req_EM_T _ _) as [_|F]; [discriminate|contradiction].
Qed.

Lemma norm_bound : forall v x, In x v -> Rabs x <= linfty_norm v.
Proof.
  induction v as [|y v IH]; intros x H; [contradiction|]. cbn [linfty_norm fold_right]. destruct H as [->|H].
  - apply Rmax_l.
  - eapply Rle_trans; [apply IH; exact H|apply Rmax_r].
Qed.

Lemma norm_attained : forall v, v <> [] -> exists x, In x v /\ linfty_norm v = Rabs x.
Proof.
  induction v as [|y v IH]; intros H; [contradiction|]. cbn [linfty_norm fold_right]. fold (linfty_norm v).
  destruct v as [|z v].
  - exists y. split; [left; reflexivity|]. cbn. apply Rmax_left. apply Rabs_pos.
  - destruct IH as (x & I & E); [discriminate|]. unfold Rmax. destruct (Rle_dec _ _).
    + exists x. split; [right; exact I|exact E].
    + exists y. split; [left|]; reflexivity.
Qed.
